(** Statements and witnesses for the turbulent channel and decaying turbulence. *)
From Verif Require Import Prelude ModelTurbChannel ModelFlowStart SpecTurbChannel SpecBenchmarks ProofDeriv ProofBenchGrid
  ProofRandf ProofTurbChannel ProofFlowStart.
Local Open Scope R_scope.

Lemma to_bool_true : forall g, g <> 0 -> to_bool g = true.
Proof. intros g G. unfold to_bool. destruct (Req_EM_T g 0); [contradiction|reflexivity]. Qed.
Lemma to_bool_0 : to_bool 0 = false.
Proof. unfold to_bool. destruct (Req_EM_T 0 0); [reflexivity|contradiction]. Qed.

Lemma main_force : forall delta retau ucl recl lx lz g,
  0 < delta -> 0 <= retau -> 0 < ucl -> 0 < recl -> g <> 0 ->
  exists F, body_force (main_channel delta retau ucl recl lx lz g) = Some F /\
    forall tau, balanced F (2 * delta) tau -> friction_reynolds (ucl * delta / recl) delta (tau 0) = retau.
Proof.
  intros delta retau ucl recl lx lz g D R U C G.
  set (c := main_channel delta retau ucl recl lx lz g).
  assert (P : ch_periodic c = true) by (apply to_bool_true, G).
  assert (V : 0 < ucl * delta / recl) by (apply Rdiv_lt_0_compat; [apply Rmult_lt_0_compat; assumption|exact C]).
  exists ((ch_retau c * ch_visc c / (ch_height c / 2)) ^ 2 * 1 / (ch_height c / 2)).
  assert (B : body_force c = Some ((ch_retau c * ch_visc c / (ch_height c / 2)) ^ 2 * 1 / (ch_height c / 2)))
    by (unfold body_force; rewrite P; reflexivity).
  split; [exact B|]. intros tau T.
  pose proof (force_reynolds c _ tau P ltac:(change (0 < 2 * delta); lra) V R B T) as E.
  change (ch_height c / 2) with (2 * delta / 2) in E. change (ch_visc c) with (ucl * delta / recl) in E.
  change (ch_retau c) with retau in E. replace (2 * delta / 2) with delta in E by field. exact E.
Qed.
Lemma main_force_ex : exists F tau,
  body_force (main_channel 1 180 10 3300 (4 * PI) (2 * PI) (8/10)) = Some F /\ 0 < F /\ balanced F 2 tau.
Proof.
  exists ((180 * (10 * 1 / 3300) / (2 * 1 / 2)) ^ 2 * 1 / (2 * 1 / 2)).
  set (F := (180 * (10 * 1 / 3300) / (2 * 1 / 2)) ^ 2 * 1 / (2 * 1 / 2)).
  exists (fun y => F * (1 - y)). split; [|split].
  - unfold body_force, main_channel, construct. cbn [ch_periodic ch_retau ch_visc ch_height]. rewrite to_bool_true by lra. reflexivity.
  - unfold F. simpl. lra.
  - split; [|ring]. intros y _. clearbody F. deriv. ring.
Qed.

Lemma mesh_summary : forall c x z, 0 < ch_height c -> Rabs (ch_density c) <= 1 ->
  keeps_order 0 1 0 (ch_height c) (fun y => snd (fst (transform c x y z))) /\
  (forall y, snd (fst (transform c x (1 - y) z)) = ch_height c - snd (fst (transform c x y z))) /\
  derivable_pt_lim (fun y => snd (fst (transform c x y z))) 0 (ch_height c * (1 - ch_density c)).
Proof.
  intros c x z H G. cbn [transform fst snd]. split; [|split].
  - apply trans_order; assumption.
  - intros y. apply trans_mirror.
  - pose proof (trans_derivative (ch_height c) (ch_density c) 0) as D. rewrite Rmult_0_r, cos_0, Rmult_1_r in D. exact D.
Qed.
Lemma mesh_ex : let c := construct 1 180 10 2 6 3 true (8/10) in 0 < ch_height c /\ Rabs (ch_density c) <= 1.
Proof. cbn [construct ch_height ch_density]. cbv zeta. split; [simpl; lra|]. simpl. rewrite Rabs_right; lra. Qed.
Lemma mesh_tangled : forall c x z, 0 < ch_height c -> 1 < ch_density c ->
  exists y, 0 < y < 1 /\ snd (fst (transform c x y z)) < 0.
Proof. intros c x z H G. cbn [transform fst snd]. apply trans_tangled; assumption. Qed.

Lemma density_ignored : forall delta retau ucl recl lx lz g, 0 < delta ->
  let c := main_channel delta retau ucl recl lx lz g in
  (forall x z l, derivable_pt_lim (fun y => snd (fst (transform c x y z))) 0 l -> l = 2 * delta * (2/10)) /\
  (g = 0 -> boundaries c = [] /\ body_force c = None) /\
  (g <> 0 -> boundaries c = [Periodic 0 1 0; Periodic 4 5 2; Wall 2 0 0 0 (85/100); Wall 3 0 0 0 (85/100)]).
Proof.
  intros delta retau ucl recl lx lz g D c. split; [|split].
  - intros x z l L. pose proof (trans_derivative (2 * delta) default_density 0) as E.
    pose proof (uniqueness_limite _ _ _ _ L E) as Q. rewrite Q, Rmult_0_r, cos_0. unfold default_density. field.
  - intros ->. assert (P : ch_periodic c = false) by apply to_bool_0.
    unfold boundaries, body_force. rewrite P. split; reflexivity.
  - intros G. assert (P : ch_periodic c = true) by (apply to_bool_true, G). unfold boundaries. rewrite P. reflexivity.
Qed.

Lemma monitor_half : rms_coords (1/2) = map (trans 1 (8/10)) [1/2; 1/8; 1/32] /\ nth 0 (rms_coords (1/2)) 0 = 1/2.
Proof.
  unfold rms_coords, default_density. cbv zeta. replace (2 * (1/2)) with 1 by field. split; [reflexivity|].
  cbn [map nth]. pose proof (trans_mirror 1 (8/10) (1/2)) as M. replace (1 - 1/2) with (1/2) in M by field. lra.
Qed.
Lemma monitor_default : nth 0 (rms_coords 1) 0 = 2 * 1 /\ nth 0 (rms_coords 1) 0 <> 1.
Proof.
  assert (E : nth 0 (rms_coords 1) 0 = 2 * 1).
  { unfold rms_coords. cbv zeta. cbn [map nth]. replace (2 * 1 / 2) with 1 by field.
    assert (O := trans_order (2 * 1) default_density ltac:(lra) ltac:(unfold default_density; rewrite Rabs_right; lra)).
    apply O. }
  split; [exact E|]. rewrite E. lra.
Qed.

Lemma seed_witness :
  (exists g, randf_1 1 0 1 (-2147483647) (fresh_rng (-2147483647)) = Ok ([0], g)) /\
  randf_1 1 0 1 (-2147483648) (fresh_rng (-2147483648)) = UB.
Proof.
  split; [|reflexivity].
  assert (S : start (-2147483647) 0 (repeat 0%Z ntab) = Ok (0%Z, 0%Z, repeat 0%Z ntab)) by reflexivity.
  exists {| g_iy := 0; g_iv := 2147483647%Z :: repeat 0%Z 31; g_seed := 2147483647 |}.
  cbn [randf_1]. unfold randf_2. cbn [g_iy g_iv fresh_rng]. rewrite S. cbn [obind fst snd].
  assert (D : draw 0 0 (repeat 0%Z ntab) = Ok (Rmin (1 / IZR im * IZR 0) rnmx,
     {| g_iy := 0; g_iv := 2147483647%Z :: repeat 0%Z 31; g_seed := 2147483647 |})) by reflexivity.
  rewrite D. cbn [obind fst snd]. rewrite Rmult_0_r. rewrite Rmin_left by (unfold rnmx; lra).
  do 3 f_equal. ring.
Qed.
Lemma randf_ex : exists v g, randf_1 1 0 1 (-50) (fresh_rng (-50)) = Ok ([v], g) /\ 0 < v < 1 /\
  g_seed g = 755794586%Z.
Proof.
  destruct (randf_range (-50) 1 0 1 ltac:(lia) ltac:(lra)) as (l & g & E & L & S & I).
  destruct l as [|v [|w l]]; [discriminate L| |discriminate L]. exists v, g. split; [exact E|].
  split; [apply (I v (or_introl eq_refl))|]. rewrite S by lia. reflexivity.
Qed.

Lemma velocity_overrun : forall c ref_level rep_y x y z i, initial_velocity c ref_level rep_y x y z i = UB.
Proof. intros. apply synthetic_overrun. Qed.
Lemma synthetic_summary : forall s, exists ms, length ms = 12%nat /\
  (forall x y z i, synthetic 13 s x y z i =
     Ok (mode_sum s ms (map (fun m => (sp_wnr1 s + (sp_wnrn s - sp_wnr1 s) / 12 * (INR m + 1/2),
                                       (sp_wnrn s - sp_wnr1 s) / 12)) (seq 0 12)) x y z i)) /\
  forall ws, divergence_free3 (fun x y z => mode_sum s ms ws x y z 0) (fun x y z => mode_sum s ms ws x y z 1)
                              (fun x y z => mode_sum s ms ws x y z 2).
Proof.
  intros s. destruct (synthetic_repaired s) as (ms & L & _ & E). exists ms. split; [exact L|]. split; [exact E|].
  intros ws. apply mode_sum_divergence.
Qed.
Lemma modes_summary : forall m,
  k_dir m 0 * s_dir m 0 + k_dir m 1 * s_dir m 1 + k_dir m 2 * s_dir m 2 = 0 /\
  k_dir m 0 ^ 2 + k_dir m 1 ^ 2 + k_dir m 2 ^ 2 = 1 /\ s_dir m 0 ^ 2 + s_dir m 1 ^ 2 + s_dir m 2 ^ 2 = 1.
Proof. intros m. split; [apply mode_orthogonal|]. split; [apply k_unit|apply s_unit]. Qed.
Lemma curl_ex : let f := fun (i : nat) (x y z : R) => match i with 0%nat => y * z | 1%nat => x * x | _ => x * y end in
  incompressible_u 1 f 0 1 2 3 = 1 /\ incompressible_u 1 f 1 1 2 3 = 0 /\ incompressible_u 1 f 2 1 2 3 = 0.
Proof. unfold incompressible_u, grad_at, shifted. cbv zeta. split; [field|]. split; field. Qed.

Lemma mean_summary : forall c, ch_charlen c = ch_height c -> 0 < ch_height c -> 0 < ch_retau c -> 0 < ch_visc c ->
  0 <= ch_ucl c ->
  mean_u c 0 = 0 /\ mean_u c (ch_height c) = 0 /\ (forall y, mean_u c (ch_height c - y) = mean_u c y) /\
  (forall y, 0 <= y <= ch_height c -> 0 <= mean_u c y) /\
  (30 <= ch_retau c -> mean_u c (ch_height c / 2) = ch_ucl c).
Proof.
  intros c E H R V U. rewrite <- E in *.
  assert (M : forall y, mean_u c (ch_charlen c - y) = mean_u c y) by (intros y; unfold mean_u; rewrite u_plus_mirror; reflexivity).
  split; [apply mean_wall, H|]. split.
  { rewrite <- (mean_wall c H). rewrite <- (M 0). rewrite Rminus_0_r. reflexivity. }
  split; [exact M|]. split.
  - intros y Y. apply mean_nonneg; assumption.
  - intros RT. apply mean_centre; assumption.
Qed.
Lemma mean_ex : let c := main_channel (1/2) 180 10 3300 (4 * PI) (2 * PI) (8/10) in
  ch_charlen c = ch_height c /\ 0 < ch_height c /\ 0 < ch_retau c /\ 0 < ch_visc c /\ 0 <= ch_ucl c /\ 30 <= ch_retau c.
Proof. cbv [main_channel construct ch_charlen ch_height ch_retau ch_visc ch_ucl]. repeat split; lra. Qed.

Lemma mean_backwards : forall x z g, exists v,
  mean_profile (main_channel 1 180 10 3300 (4 * PI) (2 * PI) g) x 2 z 0 = Ok v /\ v < - 39 * 10.
Proof.
  intros x z g. eexists. split; [reflexivity|].
  unfold mean_u, u_plus. cbv zeta. unfold main_channel, construct. cbn [ch_charlen ch_retau ch_visc ch_ucl].
  rewrite Rmin_right by lra.
  replace (180 * ((1 - 2) / (1 / 2))) with (-360) by field.
  destruct (Rle_dec (-360) 5) as [_|N]; [|lra].
  pose proof (SIN_bound (4 * x)) as S. pose proof (COS_bound x) as C1. pose proof (COS_bound 2) as C2.
  assert (B : 5 / 100 * cos x * cos 2 <= 5/100) by nra.
  lra.
Qed.
Lemma slip_witness : forall c, 0 < ch_charlen c -> mean_profile c 0 0 0 0 = Ok (5/100).
Proof.
  intros c H. cbn [mean_profile]. rewrite mean_wall by exact H. rewrite Rmult_0_r, sin_0, cos_0. f_equal. ring.
Qed.
Lemma temperature_summary : forall c, 0 < ch_height c -> ch_periodic c = true ->
  (exists t, In (Wall 2 0 0 0 t) (boundaries c) /\ In (Wall 3 0 0 0 t) (boundaries c) /\
     temperature0 c 0 = t /\ temperature0 c (ch_height c) = t /\
     forall y, 0 < y < ch_height c -> t < temperature0 c y < 124/100) /\
  forall y, temperature0 c (ch_height c - y) = temperature0 c y.
Proof.
  intros c H P. split; [|apply temperature_mirror]. exists (85/100). unfold boundaries. rewrite P.
  split; [right; right; left; reflexivity|]. split; [right; right; right; left; reflexivity|].
  destruct (temperature_wall c H) as (A & B). split; [exact A|]. split; [exact B|]. apply temperature_range.
Qed.

Lemma waves_ex : waves [(1/4, 1)] 1 0 0 <> 0.
Proof.
  rewrite one_wave. replace (2 * PI * (1/4) * 1 + 2 * PI * 1 * 0) with (PI / 2) by field. rewrite sin_PI2.
  pose proof (amplitude_pos (1/4) 1 ltac:(lra)) as A. pose proof PI_RGT_0 as P.
  assert (0 < stream_amplitude (1/4) 1 * (2 * PI)) by (apply Rmult_lt_0_compat; lra). lra.
Qed.
Lemma periodic_witness : exists gen, fst (sample gen 0 1 0 0) <> fst (sample gen 0 0 0 0).
Proof. exists (once (1/4) 1). exact not_periodic. Qed.
Lemma function_witness :
  (exists gen, fst (sample gen 0 1 0 0) <> fst (sample gen 1 1 0 0)) /\
  exists gen, ~ divergence_free2 (fun x y _ => fst (fst (sample_point gen 0 x y)))
                                 (fun x y _ => snd (fst (sample_point gen 0 x y))).
Proof. split; [exists (once (1/4) 1); exact not_a_function|exact not_incompressible]. Qed.
