(** C143, C144: the controller of the turbulent channel. *)
From Coq Require Import Sorting.Sorted.
From Verif Require Import Prelude BigSum ModelStencils ModelEquilibria ModelCollision ModelForcing SpecForcing ProofForcing ProofForcing2.
From Verif Require ProofThermalNode.
Local Open Scope R_scope.

(** ** C143: the force. *)
(** In every table written by a run the force is 50 times the present error plus 1/20 times the sum of the errors
    so far, limited to the interval between -2 and 5 times the starting force. *)
Theorem C143_law : forall starting target run c rows, applies starting target 0 run fresh_controller = Ok (c, rows) ->
  forall before r after, rows = before ++ r :: after ->
  row_force r = Rmax (- 2 * starting) (Rmin (5 * starting)
    (50 * (target - row_value r) + 5/100 * suml (fun r => target - row_value r) (before ++ [r]))) /\
  row_target r = target /\ (row_iteration r mod 10 = 0)%nat /\ (row_iteration r < length run)%nat.
Proof.
  intros s t run c rows H b r a E. destruct (proj2 (table_law _ _ _ _ _ _ _ H) b r a E) as (A & B & C & D).
  split; [rewrite A; unfold law; cbn [fresh_controller af_integral]; do 2 f_equal; ring|]. split; [exact B|]. split; [exact C|lia].
Qed.
Print Assumptions C143_law.
(** Runs with every sequence of measured values exist. *)
Example C143_law_ex : forall starting target values, exists c rows,
  applies starting target 0 (history values) fresh_controller = Ok (c, rows) /\ map row_value rows = values.
Proof. intros s t us. exact (history_rows s t us 0 fresh_controller). Qed.

Theorem C143_bounds : forall starting target iteration run c c' rows r, 0 <= starting ->
  applies starting target iteration run c = Ok (c', rows) -> In r rows -> - 2 * starting <= row_force r <= 5 * starting.
Proof. exact table_bounds. Qed.
Print Assumptions C143_bounds.

(** A flow at rest with respect to the controller, not at its limits, has the flux asked for. *)
Theorem C143_steady_partial : forall starting target iteration run c c' before r1 r2 after,
  applies starting target iteration run c = Ok (c', before ++ r1 :: r2 :: after) ->
  row_value r1 = row_value r2 -> row_force r1 = row_force r2 -> - 2 * starting < row_force r2 < 5 * starting -> row_value r2 = target.
Proof. exact table_steady. Qed.
Print Assumptions C143_steady_partial.
Example C143_steady_partial_ex : exists c r1 r2, applies 1 1 0 (history [1; 1]) fresh_controller = Ok (c, [] ++ r1 :: r2 :: []) /\
  row_value r1 = row_value r2 /\ row_force r1 = row_force r2 /\ - 2 * 1 < row_force r2 < 5 * 1.
Proof.
  destruct (history_rows 1 1 [1; 1] 0 fresh_controller) as (c & rows & E & V). destruct rows as [|r1 [|r2 [|r3 rows]]]; try discriminate.
  injection V as V1 V2. exists c, r1, r2. split; [exact E|]. pose proof (C143_law _ _ _ _ _ E) as L.
  destruct (L [] r1 [r2] eq_refl) as [L1 _]. destruct (L [r1] r2 [] eq_refl) as [L2 _]. cbn [app suml] in L1, L2. rewrite V1 in L1. rewrite V1, V2 in L2.
  split; [congruence|]. rewrite L1, L2. unfold Rmax, Rmin. repeat destruct (Rle_dec _ _); split; lra.
Qed.

Theorem C143_monotone : forall starting target v w c, v <= w ->
  af_force (calculateForce starting target w c) <= af_force (calculateForce starting target v c).
Proof. exact force_monotone. Qed.
Print Assumptions C143_monotone.

(** With a starting force against the x axis the force always points along it; without starting force there is none. *)
Theorem C143_direction_refuted : exists starting target, starting < 0 /\ target < 0 /\
  forall iteration run c c' rows r, applies starting target iteration run c = Ok (c', rows) -> In r rows -> row_force r = 2.
Proof.
  exists (- (1)), (- (1)). split; [lra|]. split; [lra|]. intros it run c c' rows r H Hr. rewrite (table_reversed (- (1)) (- (1)) it run c c' rows r ltac:(lra) H Hr). lra.
Qed.
Print Assumptions C143_direction_refuted.
Theorem C143_reversed : forall starting target iteration run c c' rows r, starting <= 0 ->
  applies starting target iteration run c = Ok (c', rows) -> In r rows -> row_force r = - 2 * starting.
Proof. exact table_reversed. Qed.
Print Assumptions C143_reversed.

(** The sum of the errors is not limited: the force can stay at its upper limit arbitrarily long although the flux
    is twice the target. *)
Theorem C143_windup_refuted : forall starting n, 0 < starting -> exists run c before after,
  applies starting 1 0 run fresh_controller = Ok (c, before ++ after) /\ length after = n /\
  forall r, In r after -> row_value r = 2 /\ row_force r = 5 * starting.
Proof. exact windup. Qed.
Print Assumptions C143_windup_refuted.

(** A restarted simulation forgets the sum: in the same iteration, with the same fields, the force is 0 instead of 5/2. *)
Theorem C143_restart_refuted : exists starting target values u, let it := (10 * length values)%nat in
  (exists c before r, applies starting target 0 (history values ++ history [u]) fresh_controller = Ok (c, before ++ [r]) /\
     row_iteration r = it /\ row_value r = target /\ row_force r = 5/2) /\
  (exists c r, applies starting target it (history [u]) fresh_controller = Ok (c, [r]) /\ row_iteration r = it /\ row_value r = target /\ row_force r = 0).
Proof. exact restart_loses. Qed.
Print Assumptions C143_restart_refuted.

(** ** C144: the measured flux and density, and the rescaling. *)
Theorem C144_measure_partial : forall processes, processes <> [] -> (forall p, In p processes -> p <> []) -> separated_planes (concat processes) ->
  exists ys, StronglySorted Rlt ys /\ (forall y, In y ys <-> exists v, In v (concat processes) /\ vi_y v = y) /\
  calculateRhoU processes = Ok (trapezoidal (plane_mean (concat processes) (fun v => vi_rho v * vi_u v)) ys / 2,
                                trapezoidal (plane_mean (concat processes) vi_rho) ys / 2).
Proof. exact measured. Qed.
Print Assumptions C144_measure_partial.
Example C144_measure_partial_ex : separated_planes (concat (channel 3)) /\ calculateRhoU (channel 3) = Ok (3, 1).
Proof.
  split; [|exact (channel_measure 3)].
  intros v w Hv Hw. cbn in Hv, Hw. destruct Hv as [<-|[<-|[]]]; destruct Hw as [<-|[<-|[]]]; cbn [vi_y]; try (left; reflexivity); right; unfold Rabs; destruct (Rcase_abs _); lra.
Qed.

(** Linear profiles in a channel from lo to hi: the result is the mean flux times half the height. *)
Theorem C144_linear : forall processes lo hi a b, processes <> [] -> (forall p, In p processes -> p <> []) -> separated_planes (concat processes) ->
  (forall v, In v (concat processes) -> lo <= vi_y v <= hi /\ vi_rho v = 1 /\ vi_u v = a + b * vi_y v) ->
  (exists v, In v (concat processes) /\ vi_y v = lo) -> (exists v, In v (concat processes) /\ vi_y v = hi) ->
  calculateRhoU processes = Ok ((hi - lo) / 2 * (a + b * (lo + hi) / 2), (hi - lo) / 2).
Proof. exact linear_profile. Qed.
Print Assumptions C144_linear.

Theorem C144_height_refuted : exists processes, (forall v, In v (concat processes) -> 0 <= vi_y v <= 1 /\ vi_rho v = 1 /\ vi_u v = 1) /\
  calculateRhoU processes = Ok (1/2, 1/2).
Proof.
  eexists. split; [|exact height_one]. intros v Hv. cbn in Hv. destruct Hv as [<-|[<-|[]]]; cbn; repeat split; lra.
Qed.
Print Assumptions C144_height_refuted.

(** Coordinates of two processes that differ by rounding (here 1e-9), and a process without cells. *)
Theorem C144_rounding_refuted : exists processes, (forall p, In p processes -> p <> []) /\
  (forall v, In v (concat processes) -> vi_rho v = 1 /\ vi_u v = 1 /\ (vi_y v = 0 \/ Rabs (vi_y v - 2) <= 1/1000000000)) /\ calculateRhoU processes = UB.
Proof.
  exists noisy. split; [intros p [<-|[<-|[]]]; discriminate|]. split; [|exact noisy_undefined].
  intros v Hv. cbn in Hv. destruct Hv as [<-|[<-|[<-|[<-|[]]]]]; cbn [vi_rho vi_u vi_y]; (split; [reflexivity|]); (split; [reflexivity|]).
  - left; reflexivity.
  - right. rewrite Rminus_eq_0, Rabs_R0. lra.
  - left; reflexivity.
  - right. unfold near. rewrite Rabs_right; lra.
Qed.
Print Assumptions C144_rounding_refuted.
Theorem C144_idle_refuted : exists processes, concat processes <> [] /\ calculateRhoU processes = UB.
Proof. eexists. split; [|exact idle_process]. discriminate. Qed.
Print Assumptions C144_idle_refuted.

(** Rescaling brings the measured density to one. *)
Theorem C144_density : forall starting target iteration processes c c' k rows,
  apply starting target iteration processes c = Ok (c', k, rows) -> rows <> [] ->
  exists v, calculateRhoU (map (map (fun x => {| vi_y := vi_y x; vi_rho := k * vi_rho x; vi_u := vi_u x |})) processes) = Ok (v, 1).
Proof. exact apply_rescales. Qed.
Print Assumptions C144_density.
Example C144_density_ex : exists c' rows, apply 1 1 0 (channel 1) fresh_controller = Ok (c', 1 / 1, rows) /\ rows <> [].
Proof.
  unfold apply. cbn [Nat.modulo Nat.divmod Nat.eqb Nat.sub fst snd]. rewrite channel_measure. cbn [obind fst snd]. destruct (Req_EM_T 1 0); [lra|].
  eexists. eexists. split; [reflexivity|discriminate].
Qed.

(** But it multiplies f only, which changes the temperature unless g carries no energy. *)
Theorem C144_temperature_partial : forall gd f g u rho k, rho <> 0 -> k <> 0 -> cc_heat_gamma (gd_cfg gd) <> 1 ->
  (calculateTemperature gd (scaleF k f) g u (k * rho) = calculateTemperature gd f g u rho <-> k = 1 \/ sumf (st_Q (gd_L gd)) g = 0).
Proof. exact temperature_kept. Qed.
Print Assumptions C144_temperature_partial.
Theorem C144_temperature_change : forall gd f g u rho k, rho <> 0 -> k <> 0 -> cc_heat_gamma (gd_cfg gd) <> 1 ->
  calculateTemperature gd (scaleF k f) g u (k * rho) - calculateTemperature gd f g u rho =
  (1 / k - 1) * (sumf (st_Q (gd_L gd)) g * (cc_heat_gamma (gd_cfg gd) - 1) / (2 * rho)).
Proof. exact temperature_scaled. Qed.
Print Assumptions C144_temperature_change.
Theorem C144_temperature_refuted : exists gd f g u rho k, cc_heat_gamma (gd_cfg gd) = 7/5 /\ (forall i, 0 < f i /\ 0 < g i) /\ rho = sumf (st_Q (gd_L gd)) f /\ k = 1/2 /\
  calculateTemperature gd (scaleF k f) g u (k * rho) <> calculateTemperature gd f g u rho.
Proof.
  exists (ProofThermalNode.gd_of (stencil_of Stencil_D2Q9 1) (7/5)), (fun _ => 1), (fun _ => 1), (fun _ => 0), 9, (1/2).
  split; [reflexivity|]. split; [intros; split; lra|]. split; [cbn; ring|]. split; [reflexivity|].
  rewrite C144_temperature_partial; [|lra|lra|cbn; lra]. intros [H|H]; [lra|]. cbn in H. lra.
Qed.
Print Assumptions C144_temperature_refuted.
