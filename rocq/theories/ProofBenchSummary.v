(** Statements of PropBenchmarks put together from the lemmas. *)
From Verif Require Import Prelude ModelBenchmarks SpecBenchmarks ProofDeriv ProofBenchTGV ProofBenchCouette ProofCouetteInit ProofBenchChannel
  ProofBenchGrid ProofBenchAdvection ProofBenchInitial.
Local Open Scope R_scope.

Lemma couette_summary : forall f : couette, 0 < co_nu f -> 0 < co_L f ->
  exists w : R -> R -> R,
    (forall h t, 0 < t -> Un_cv (fun n => couette_series (co_nu f) (co_U f) (co_L f) n h t) (w h t)) /\
    diffusion (co_nu f) w /\
    (forall t, 0 < t -> w 0 t = 0 /\ w (couette2_plate f) t = co_U f) /\
    (forall h1 eps, h1 < couette2_plate f -> 0 < eps -> exists delta, 0 < delta /\
       forall h t, 0 <= h <= h1 -> 0 < t < delta -> Rabs (w h t) < eps) /\
    (forall x y time c, 1 / 100000 <= time + co_t0 f -> co_L f * co_L f <= 10 ^ 7 * co_nu f * (time + co_t0 f) ->
       couette2_velocity f 0 x y time = Ok c -> Rabs (c - w y (time + co_t0 f)) <= Rabs (co_U f) / 10 ^ 15).
Proof.
  intros f Hnu HL. exists (flow (co_nu f) (co_U f) (co_L f) Hnu HL). split; [intros; apply flow_cv; assumption|].
  split; [apply flow_diffusion|]. split; [|split].
  - intros t Ht. split; [apply flow_bottom|apply flow_top]; exact Ht.
  - apply flow_start.
  - intros x y time c H1 H2 E. injection E as <-. apply profile_close; assumption.
Qed.
Lemma couette_early : forall f w x, co_nu f = 10 ^ 7 -> co_U f = 1 -> co_L f = 1 -> co_t0 f = 0 ->
  (forall h t, 0 < t -> Un_cv (fun n => couette_series (co_nu f) (co_U f) (co_L f) n h t) (w h t)) ->
  couette2_velocity f 0 x (1 / 2) (/ 10 ^ 6) = Ok 0 /\ 2 / 5 < w (1 / 2) (/ 10 ^ 6).
Proof.
  intros f w x E1 E2 E3 E4 Hw. rewrite E1, E2, E3 in Hw. split.
  - cbn [couette2_velocity]. unfold couette_profile. rewrite E3, E4. f_equal.
    destruct (Rlt_dec (/ 10 ^ 6 + 0) (1 / 100000)) as [_|N]; [|exfalso; apply N; lra].
    destruct (Rlt_dec (1 / 2) (1 - 1 / 100000)) as [_|N]; [reflexivity|exfalso; apply N; lra].
  - assert (H7 : 0 < 10 ^ 7) by lra. assert (H1 : 0 < 1) by lra. assert (Ht : 0 < / 10 ^ 6) by lra.
    assert (E : w (1 / 2) (/ 10 ^ 6) = flow (10 ^ 7) 1 1 H7 H1 (1 / 2) (/ 10 ^ 6)).
    { apply (UL_sequence _ _ _ (Hw _ _ Ht)). apply flow_cv. exact Ht. }
    assert (D : dec (10 ^ 7) 1 0 (/ 10 ^ 6) <= / 90).
    { unfold dec, lam. cbn [INR]. rewrite exp_Ropp. apply Rinv_le_contravar; [lra|].
      pose proof PI2_3_2 as HP. unfold PI2 in HP. pose proof PI_RGT_0.
      apply Rle_trans with (1 + 10 ^ 7 * (1 * PI / 1) ^ 2 * / 10 ^ 6).
      - replace (10 ^ 7 * (1 * PI / 1) ^ 2 * / 10 ^ 6) with (10 * PI ^ 2) by field. assert (9 <= PI ^ 2) by nra. lra.
      - left. apply exp_ineq1.
        replace (10 ^ 7 * (1 * PI / 1) ^ 2 * / 10 ^ 6) with (10 * PI ^ 2) by field. assert (9 <= PI ^ 2) by nra. lra. }
    pose proof (remainder (10 ^ 7) 1 1 H7 H1 0 (1 / 2) (/ 10 ^ 6) Ht ltac:(lra)) as Rm.
    rewrite <- E in Rm. rewrite Rabs_R1 in Rm. cbn [INR] in Rm. rewrite series_sum in Rm. cbn [sum_f_R0] in Rm.
    pose proof (T0_abs (10 ^ 7) 1 1 0 (1 / 2) (/ 10 ^ 6)) as B. rewrite Rabs_R1 in B. cbn [INR] in B.
    pose proof (dec_pos (10 ^ 7) 1 0 (/ 10 ^ 6)) as DP.
    assert (B2 : Rabs (T0 (10 ^ 7) 1 1 0 (1 / 2) (/ 10 ^ 6)) <= / 90).
    { eapply Rle_trans; [exact B|]. pose proof PI2_3_2 as HP. unfold PI2 in HP.
      assert (2 * 1 / PI <= 1).
      { apply (Rmult_le_reg_r PI); [lra|]. unfold Rdiv. rewrite Rmult_assoc, Rinv_l by lra. lra. }
      rewrite Rinv_1, Rmult_1_r. apply Rle_trans with (1 * / 90); [|lra].
      apply Rmult_le_compat; [unfold Rdiv; apply Rmult_le_pos; [lra|left; apply Rinv_0_lt_compat; lra]|lra|assumption|exact D]. }
    set (W := w (1 / 2) (/ 10 ^ 6)) in *. set (T := T0 (10 ^ 7) 1 1 0 (1 / 2) (/ 10 ^ 6)) in *. set (d := dec (10 ^ 7) 1 0 (/ 10 ^ 6)) in *.
    clearbody W T d. unfold Rabs in Rm, B2. destruct (Rcase_abs _) in Rm; destruct (Rcase_abs _) in B2; lra.
Qed.
Lemma couette_early_witness : exists f : couette, 0 < co_nu f /\ 0 < co_L f /\
  forall w, (forall h t, 0 < t -> Un_cv (fun n => couette_series (co_nu f) (co_U f) (co_L f) n h t) (w h t)) ->
  exists y time, 0 < time /\ 0 < y < couette2_plate f /\ couette2_velocity f 0 0 y time = Ok 0 /\
    2 / 5 * co_U f < w y (time + co_t0 f).
Proof.
  exists {| co_nu := 10 ^ 7; co_U := 1; co_L := 1; co_t0 := 0 |}. cbn [co_nu co_L].
  split; [lra|split; [lra|]]. intros w Hw. exists (1 / 2), (/ 10 ^ 6). unfold couette2_plate. cbn [co_L co_U co_t0].
  destruct (couette_early {| co_nu := 10 ^ 7; co_U := 1; co_L := 1; co_t0 := 0 |} w 0 eq_refl eq_refl eq_refl eq_refl Hw) as [A B].
  split; [lra|split; [lra|split; [exact A|]]]. rewrite Rplus_0_r. lra.
Qed.
Lemma couette_walls : forall (f : couette) (x time : R) component, 1 / 100000 < co_L f -> (component < 2)%nat ->
  couette2_velocity f component x 0 time = Ok (couette_wall_bottom f component) /\
  couette2_velocity f component x (couette2_plate f) time = Ok (couette_wall_top f component).
Proof.
  intros f x time [|[|k]] H Hc; [| |lia]; cbn [couette2_velocity couette_wall_bottom couette_wall_top]; [|split; reflexivity].
  unfold couette2_plate. rewrite profile_bottom, profile_top by lra. split; reflexivity.
Qed.
Lemma poiseuille_summary : forall (nu u_bulk height : R) (f : poiseuille), 0 < height -> nu <> 0 ->
  poiseuille_construct nu u_bulk height true = Ok f ->
  (exists u, steady_channel (po_nu f) (po_force f) (po_height f) u) /\
  forall u, steady_channel (po_nu f) (po_force f) (po_height f) u ->
    mean_over 0 height u u_bulk /\ (forall y, 0 <= y <= height -> u y = 6 * u_bulk * y * (height - y) / (height * height)) /\
    u (height / 2) = po_uMax f.
Proof.
  intros nu u_bulk height f Hh Hnu E. split; [eapply poiseuille_exists; eassumption|]. intros u Hu.
  destruct (poiseuille_bulk nu u_bulk height f u Hh Hnu E Hu) as [H1 H2]. split; [exact H1|split; [exact H2|]].
  rewrite H2 by lra. injection E as <-. cbn [po_uMax]. field. lra.
Qed.
Lemma and_assoc_swap : forall A B C : Prop, (A /\ B /\ C) <-> ((A /\ B) /\ C). Proof. tauto. Qed.

Lemma couette2_grid_order : keeps_order 0 1 0 1 (fun y => snd (couette2_grid true (1 / 3, y))) /\
  forall p, fst (couette2_grid true p) = fst p /\ snd (couette2_grid true p) = snd (couette2_grid true (1 / 3, snd p)).
Proof. split; [exact couette2_order|]. intros p; split; reflexivity. Qed.
Lemma sinus_summary : forall (height ampl wavelength : R) (g : R * R -> R * R),
  (forall p, sinus_grid height ampl wavelength p = Ok (g p)) ->
  Rabs ampl <= 3 / 2 -> Rabs ampl < height -> 0 < wavelength ->
  one_to_one_on 1 1 g /\
  (forall y, keeps_order 0 1 0 wavelength (fun x => fst (g (x, y)))) /\
  (forall x, keeps_order 0 1 0 (height + ampl * sin (2 * PI * (fst (g (x, 0)) / wavelength))) (fun y => snd (g (x, y)))).
Proof.
  intros height ampl wavelength g E H1 H2 H3. split; [eapply sinus_injective; eassumption|split].
  - eapply sinus_sides; eassumption.
  - intros x. apply (sinus_columns height ampl wavelength g E H2 H3 x).
Qed.
Lemma lubri_summary : forall (height ampl wavelength roughness : R) (ratio : nat) (g : R * R -> R * R),
  (forall p, lubri_grid height ampl wavelength roughness ratio p = Ok (g p)) ->
  Rabs ampl + Rabs roughness < height -> 0 < wavelength ->
  one_to_one_on wavelength height g /\
  (forall y, keeps_order 0 wavelength 0 wavelength (fun x => fst (g (x, y)))) /\
  (forall x, keeps_order 0 height 0 (lubri_upper height ampl wavelength roughness ratio (fst (g (x, 0)))) (fun y => snd (g (x, y)))).
Proof.
  intros height ampl wavelength roughness ratio g E H1 H2. split; [eapply lubri_injective; eassumption|split].
  - eapply lubri_sides; eassumption.
  - eapply lubri_columns; eassumption.
Qed.
Lemma grids_refuted :
  (exists f x, 0 < co_L f /\ snd (couette2_grid true (x, couette2_plate f)) < couette2_plate f) /\
  (exists height ampl x q, ampl < height /\ 0 < x < 1 /\ sinus_grid height ampl 1 (x, 0) = Ok q /\ fst q < 0) /\
  (exists height ampl x q, ampl < height /\ 0 < x < 1 /\ sinus_grid height ampl 1 (x, 1) = Ok q /\ snd q < 0) /\
  (exists height ampl roughness x q, ampl < height /\ roughness < height /\ 0 < x < 1 /\
     lubri_grid height ampl 1 roughness 1 (x, height) = Ok q /\ snd q < 0) /\
  (forall p, couette3_grid true p = Throw).
Proof.
  split; [|split; [|split; [|split]]].
  - exists {| co_nu := 1; co_U := 1; co_L := 2; co_t0 := 0 |}, 0. split; [cbn; lra|]. apply couette2_plate_moved. cbn; lra.
  - destruct (sinus_folds 1 ltac:(lra)) as (q & E & H). exists 5, 4, (1 / 24), q. repeat split; try lra; assumption.
  - destruct (sinus_upside_down 1) as (q & E & H). exists 1, (-2), (1 / 4), q. repeat split; try lra; assumption.
  - destruct lubri_upside_down as (q & E & H). exists 1, (1 / 2), (6 / 10), (1 / 2), q. repeat split; try lra; assumption.
  - reflexivity.
Qed.
Lemma advection_summary : forall (smooth : bool),
  (forall time x, exists fuel0 a, forall fuel, (fuel0 <= fuel)%nat -> adv_analytic fuel time x smooth = Some a) /\
  forall a : R -> R -> R, (forall x t, exists fuel, adv_analytic fuel t x smooth = Some (a x t)) ->
  (forall x t, exists l, derivable_pt_lim (fun y => a y t) x l /\ derivable_pt_lim (fun r => a x r) t (- l)) /\
  (forall t, periodic 1 (fun x => a x t)) /\
  (forall x, a x 0 = (if smooth then sin (2 * PI * x) else sin (2 * PI * x) * Rabs (sin (2 * PI * x)))).
Proof.
  intros s. split; [|exact (analytic_solves s)]. intros time x. destruct (analytic_ends time x) as [n H].
  exists n, (adv_profile s (x - time)). intros fuel Hf. apply H, Hf.
Qed.
Lemma shear_summary : forall (u0 kappa perturbation : R) (u v : R -> R -> R -> R),
  (forall x y t, shear_velocity u0 kappa perturbation 0 x y = Ok (u x y t)) ->
  (forall x y t, shear_velocity u0 kappa perturbation 1 x y = Ok (v x y t)) ->
  divergence_free2 u v /\
  (forall x y t, u 0 y t = u 1 y t /\ v 0 y t = v 1 y t /\ u x 0 t = u x 1 t /\ v x 0 t = v x 1 t) /\
  (forall x y t, continuity_pt (fun s => u s y t) x /\ continuity_pt (fun s => u x s t) y /\
                 continuity_pt (fun s => v s y t) x /\ continuity_pt (fun s => v x s t) y) /\
  (forall x y t, Rabs (u x y t) <= Rabs u0 /\ Rabs (v x y t) <= Rabs perturbation * Rabs u0).
Proof.
  intros u0 kappa perturbation u v Hu Hv. split; [eapply shear_divergence; eassumption|split; [|split]].
  - eapply shear_sides; eassumption.
  - eapply shear_continuous; eassumption.
  - eapply shear_bounds; eassumption.
Qed.
Lemma droplet_summary : forall (l h rho_l rho_g W R0 : R) (rho : R -> R -> R),
  (forall x y, droplet_density l h rho_l rho_g W R0 0 x y = Ok (rho x y)) -> rho_g < rho_l -> 0 < W ->
  let dist x y := sqrt ((x - l / 2) ^ 2 + (y - h / 2) ^ 2) in
  (forall x y, rho_g < rho x y < rho_l) /\
  (forall x y, rho 0 y = rho l y /\ rho x 0 = rho x h) /\
  (forall x y x' y', dist x y < dist x' y' -> rho x' y' < rho x y) /\
  (forall x y, dist x y = R0 -> rho x y = (rho_l + rho_g) / 2).
Proof.
  intros l h rho_l rho_g W R0 rho E H HW dist.
  assert (A : forall x y, dist x y = away l h x y).
  { intros x y. unfold dist, away. replace (1 / 2 * l) with (l / 2) by field. replace (1 / 2 * h) with (h / 2) by field. reflexivity. }
  split; [|split; [|split]].
  - eapply droplet_between; eassumption.
  - eapply droplet_sides; eassumption.
  - intros x y x' y'. rewrite !A. eapply droplet_decreasing; eassumption.
  - intros x y. rewrite A. eapply droplet_interface; eassumption.
Qed.
