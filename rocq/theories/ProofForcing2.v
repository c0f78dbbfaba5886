(** The controller, rescaling and witnesses. *)
From Coq Require Import Sorting.Sorted.
From Verif Require Import Prelude BigSum ModelStencils ModelEquilibria ModelCollision ModelForcing SpecForcing ProofForcing.
Local Open Scope R_scope.

(** ** The table *)
Definition err (target : R) (r : row) : R := target - row_value r.
Definition law (s target integral : R) (before : list row) (r : row) : R :=
  Rmax (- 2 * s) (Rmin (5 * s) (50 * (target - row_value r) + 5/100 * (integral + suml (fun r => target - row_value r) (before ++ [r])))).

Lemma force_clamped s target value c : af_force (calculateForce s target value c) =
  Rmax (- 2 * s) (Rmin (5 * s) (50 * (target - value) + 5/100 * (af_integral c + (target - value)))).
Proof.
  unfold calculateForce, kp, ki. cbn [af_force]. set (o := 50 * (target - value) + 5/100 * (af_integral c + (target - value))).
  assert (E : (if Rlt_dec (5 * s) o then 5 * s else o) = Rmin (5 * s) o) by (unfold Rmin; destruct (Rlt_dec (5 * s) o); destruct (Rle_dec (5 * s) o); lra).
  rewrite E. unfold Rmax. destruct (Rlt_dec (Rmin (5 * s) o) (- 2 * s)); destruct (Rle_dec (- 2 * s) (Rmin (5 * s) o)); lra.
Qed.

Lemma table_law s target run : forall iteration c c' rows, applies s target iteration run c = Ok (c', rows) ->
  af_integral c' = af_integral c + suml (fun r => target - row_value r) rows /\
  forall before r after, rows = before ++ r :: after ->
    row_force r = law s target (af_integral c) before r /\ row_target r = target /\ (row_iteration r mod 10 = 0)%nat /\
    (iteration <= row_iteration r < iteration + length run)%nat.
Proof.
  induction run as [|p rest IH]; intros it c c' rows H.
  - cbn in H. injection H as <- <-. split; [cbn; ring|]. intros before r after E. destruct before; discriminate.
  - cbn [applies] in H. unfold apply in H. destruct (Nat.eqb (it mod 10) 0) eqn:Emod.
    + destruct (calculateRhoU p) as [[v d]| |] eqn:Em; cbn [obind fst snd] in H; try discriminate. destruct (Req_EM_T d 0); [discriminate|]. cbn [obind fst snd] in H.
      set (c1 := calculateForce s target v c) in *. pose proof (force_clamped s target v c) as FC. fold c1 in FC. destruct (applies s target (S it) rest c1) as [[c2 rs]| |] eqn:Er; cbn [obind fst snd] in H; try discriminate.
      injection H as <- <-. destruct (IH _ _ _ _ Er) as [A B].
      assert (Ei : af_integral c1 = af_integral c + (target - v)) by reflexivity. split.
      * rewrite A, Ei. cbn. ring.
      * intros before r after E. destruct before as [|b before].
        -- cbn [app] in E. injection E as <- <-. cbn [row_force row_target row_iteration]. split; [|split; [reflexivity|split; [apply Nat.eqb_eq; exact Emod|cbn [length]; lia]]].
           change (af_force c1 = law s target (af_integral c) [] {| row_iteration := it; row_rho := d; row_target := target; row_value := v; row_force := af_force c1 |}).
           rewrite FC. unfold law. cbn [app suml row_value]. do 2 f_equal. ring.
        -- cbn [app] in E. injection E as <- E. destruct (B before r after E) as (B1 & B2 & B3 & B4). split; [|split; [exact B2|split; [exact B3|cbn [length]; lia]]].
           rewrite B1. unfold law. rewrite Ei. cbn [app suml row_value]. do 2 f_equal. ring.
    + cbn [obind fst snd] in H. destruct (applies s target (S it) rest c) as [[c2 rs]| |] eqn:Er; cbn [obind fst snd app] in H; try discriminate.
      injection H as <- <-. destruct (IH _ _ _ _ Er) as [A B]. split; [exact A|]. intros before r after E. destruct (B before r after E) as (B1 & B2 & B3 & B4).
      split; [exact B1|]. split; [exact B2|]. split; [exact B3|]. cbn [length]. lia.
Qed.

Lemma in_table {A} (r : A) rows : In r rows -> exists before after, rows = before ++ r :: after.
Proof. apply in_split. Qed.

Lemma table_bounds s target iteration run c c' rows r : 0 <= s -> applies s target iteration run c = Ok (c', rows) -> In r rows -> - 2 * s <= row_force r <= 5 * s.
Proof.
  intros Hs H Hr. destruct (in_table _ _ Hr) as (b & a & E). destruct (proj2 (table_law _ _ _ _ _ _ _ H) b r a E) as [-> _]. unfold law. split; [apply Rmax_l|].
  apply Rmax_lub; [lra|apply Rmin_l].
Qed.
Lemma table_reversed s target iteration run c c' rows r : s <= 0 -> applies s target iteration run c = Ok (c', rows) -> In r rows -> row_force r = - 2 * s.
Proof.
  intros Hs H Hr. destruct (in_table _ _ Hr) as (b & a & E). destruct (proj2 (table_law _ _ _ _ _ _ _ H) b r a E) as [-> _]. unfold law. apply Rmax_left.
  eapply Rle_trans; [apply Rmin_l|lra].
Qed.
Lemma table_steady s target iteration run c c' before r1 r2 after : applies s target iteration run c = Ok (c', before ++ r1 :: r2 :: after) ->
  row_value r1 = row_value r2 -> row_force r1 = row_force r2 -> - 2 * s < row_force r2 < 5 * s -> row_value r2 = target.
Proof.
  intros H Ev Ef Hb. pose proof (proj2 (table_law _ _ _ _ _ _ _ H)) as L.
  destruct (L before r1 (r2 :: after) eq_refl) as [L1 _]. destruct (L (before ++ [r1]) r2 after ltac:(rewrite <- app_assoc; reflexivity)) as [L2 _].
  unfold law in L1, L2. rewrite !suml_app in L2. rewrite suml_app in L1. cbn [suml] in L1, L2. rewrite Ev in L1. rewrite Ev in L2. rewrite Ef in L1.
  set (S0 := suml (fun r => target - row_value r) before) in *. set (e := target - row_value r2) in *.
  assert (X : forall o, row_force r2 = Rmax (- 2 * s) (Rmin (5 * s) o) -> row_force r2 = o).
  { intros o Eo. unfold Rmax, Rmin in Eo. destruct (Rle_dec (5 * s) o); destruct (Rle_dec (- 2 * s) _); lra. }
  apply X in L1. apply X in L2. unfold e in *. lra.
Qed.
(** A smaller flux never gives a smaller force. *)
Lemma force_monotone s target v w c : v <= w -> af_force (calculateForce s target w c) <= af_force (calculateForce s target v c).
Proof. intros H. rewrite !force_clamped. unfold Rmax, Rmin. repeat destruct (Rle_dec _ _); lra. Qed.

(** ** Runs with prescribed flux: a channel of height 2 with uniform velocity *)
Definition channel (u : R) : list (list visit) := [[{| vi_y := 0; vi_rho := 1; vi_u := u |}; {| vi_y := 2; vi_rho := 1; vi_u := u |}]].
Lemma channel_measure u : calculateRhoU (channel u) = Ok (u, 1).
Proof.
  rewrite (linear_profile (channel u) 0 2 u 0).
  - f_equal. f_equal; field.
  - discriminate.
  - intros p [<-|[]]. discriminate.
  - intros v w Hv Hw. cbn in Hv, Hw. destruct Hv as [<-|[<-|[]]]; destruct Hw as [<-|[<-|[]]]; cbn [vi_y]; try (left; reflexivity); right; unfold Rabs; destruct (Rcase_abs _); lra.
  - intros v Hv. cbn in Hv. destruct Hv as [<-|[<-|[]]]; cbn [vi_y vi_rho vi_u]; repeat split; lra.
  - eexists. split; [left; reflexivity|reflexivity].
  - eexists. split; [right; left; reflexivity|reflexivity].
Qed.
Definition history (us : list R) : list (list (list visit)) := flat_map (fun u => repeat (channel u) 10) us.

Lemma skip s target rest c : forall n it, (0 < it mod 10)%nat -> (it mod 10 + n <= 10)%nat -> forall p,
  applies s target it (repeat p n ++ rest) c = applies s target (it + n) rest c.
Proof.
  induction n as [|n IH]; intros it H0 H1 p; [rewrite Nat.add_0_r; reflexivity|].
  cbn [repeat app applies]. unfold apply. destruct (Nat.eqb (it mod 10) 0) eqn:E; [apply Nat.eqb_eq in E; lia|]. cbn [obind fst snd].
  destruct n as [|n].
  - cbn [repeat app]. replace (it + 1)%nat with (S it) by lia. destruct (applies s target (S it) rest c) as [[c2 rs]| |]; reflexivity.
  - assert (M : (S it mod 10 = S (it mod 10))%nat).
    { rewrite <- (Nat.add_1_r it), Nat.add_mod by lia. rewrite (Nat.mod_small 1) by lia. rewrite Nat.mod_small by lia. lia. }
    rewrite IH by (rewrite M; lia). replace (S it + S n)%nat with (it + S (S n))%nat by lia.
    destruct (applies s target (it + S (S n)) rest c) as [[c2 rs]| |]; reflexivity.
Qed.

Lemma history_rows s target us : forall k c, exists c' rows, applies s target (10 * k) (history us) c = Ok (c', rows) /\ map row_value rows = us.
Proof.
  induction us as [|u us IH]; intros k c; [exists c, []; split; reflexivity|].
  change (history (u :: us)) with (repeat (channel u) 10 ++ history us). change (repeat (channel u) 10) with (channel u :: repeat (channel u) 9). rewrite <- app_comm_cons.
  cbn [applies]. unfold apply. assert (M : ((10 * k) mod 10 = 0)%nat) by (rewrite Nat.mul_comm; apply Nat.mod_mul; lia). rewrite M. cbn [Nat.eqb]. rewrite channel_measure. cbn [obind fst snd].
  destruct (Req_EM_T 1 0); [lra|]. cbn [obind fst snd]. set (c1 := calculateForce s target u c).
  assert (M1 : (S (10 * k) mod 10 = 1)%nat) by (rewrite <- (Nat.add_1_r (10 * k)), Nat.add_mod by lia; rewrite M; reflexivity).
  rewrite skip by (rewrite M1; lia). replace (S (10 * k) + 9)%nat with (10 * S k)%nat by lia.
  destruct (IH (S k) c1) as (c' & rows & E & Ev). rewrite E. cbn [obind fst snd]. eexists. eexists. split; [reflexivity|]. cbn. rewrite Ev. reflexivity.
Qed.

Lemma map_row_app rows l1 l2 : map row_value rows = l1 ++ l2 -> exists r1 r2, rows = r1 ++ r2 /\ map row_value r1 = l1 /\ map row_value r2 = l2.
Proof. intros H. apply map_eq_app in H. exact H. Qed.

Lemma err_sum target rows : suml (fun r => target - row_value r) rows = suml (fun v => target - v) (map row_value rows).
Proof. rewrite suml_map. reflexivity. Qed.
Lemma suml_repeat target v n : suml (fun w => target - w) (repeat v n) = INR n * (target - v).
Proof. induction n as [|n IH]; [cbn; ring|]. cbn [repeat suml]. rewrite S_INR, IH. ring. Qed.

Lemma windup s n : 0 < s -> exists run c before after, applies s 1 0 run fresh_controller = Ok (c, before ++ after) /\ length after = n /\
  forall r, In r after -> row_value r = 2 /\ row_force r = 5 * s.
Proof.
  intros Hs. assert (exists N, INR n + 1000 + 100 * s < INR N) as [N HN].
  { exists (Z.to_nat (up (INR n + 1000 + 100 * s))). destruct (archimed (INR n + 1000 + 100 * s)) as [A _]. rewrite (INR_IZR_INZ (Z.to_nat _)), Z2Nat.id; [exact A|].
    apply le_IZR. pose proof (pos_INR n). lra. }
  destruct (history_rows s 1 (repeat 0 N ++ repeat 2 n) 0 fresh_controller) as (c & rows & E & Ev).
  change (10 * 0)%nat with O in E.
  destruct (map_row_app _ _ _ Ev) as (before & after & -> & E1 & E2).
  exists (history (repeat 0 N ++ repeat 2 n)), c, before, after. split; [exact E|]. split; [rewrite <- (map_length row_value), E2; apply repeat_length|].
  intros r Hr. assert (V : row_value r = 2) by (apply (repeat_spec n 2); rewrite <- E2; apply in_map; exact Hr). split; [exact V|].
  destruct (in_split _ _ Hr) as (a1 & a2 & Ea). subst after.
  destruct (proj2 (table_law _ _ _ _ _ _ _ E) (before ++ a1) r a2 ltac:(rewrite <- app_assoc; reflexivity)) as [L _]. rewrite L. unfold law. cbn [fresh_controller af_integral].
  rewrite !suml_app. cbn [suml]. rewrite V. rewrite (err_sum 1 before), E1, suml_repeat.
  assert (Q : - INR n <= suml (fun r => 1 - row_value r) a1 + (1 - 2)).
  { rewrite err_sum. rewrite map_app in E2. cbn [map] in E2.
    assert (H1 : map row_value a1 = repeat 2 (length a1)).
    { assert (G : forall l, (forall x, In x l -> x = 2) -> l = repeat 2 (length l)) by (induction l as [|x l IHl]; intros H; [reflexivity|cbn; rewrite (H x (or_introl eq_refl)), <- IHl; [reflexivity|intros; apply H; right; assumption]]).
      rewrite <- (map_length row_value a1). apply G. intros x Hx. apply (repeat_spec n 2). rewrite <- E2. apply in_or_app. left. exact Hx. }
    rewrite H1, suml_repeat. assert (Z : (length a1 + 1 <= n)%nat).
    { assert (length (map row_value a1 ++ row_value r :: map row_value a2) = n) by (rewrite E2; apply repeat_length). rewrite app_length, map_length in H. cbn in H. lia. }
    apply le_INR in Z. rewrite plus_INR in Z. cbn in Z. lra. }
  rewrite Rmin_left by lra. apply Rmax_right. lra.
Qed.

Lemma restart_loses : exists s target us u, let it := (10 * length us)%nat in
  (exists c before r, applies s target 0 (history us ++ history [u]) fresh_controller = Ok (c, before ++ [r]) /\ row_iteration r = it /\ row_value r = target /\ row_force r = 5/2) /\
  (exists c r, applies s target it (history [u]) fresh_controller = Ok (c, [r]) /\ row_iteration r = it /\ row_value r = target /\ row_force r = 0).
Proof.
  exists 1, 50, [0], 50. cbv zeta. cbn [length]. change (10 * 1)%nat with 10%nat. split.
  - cbn [history flat_map app repeat applies apply Nat.modulo Nat.divmod Nat.eqb Nat.sub fst snd]. rewrite !channel_measure. cbn [obind fst snd].
    destruct (Req_EM_T 1 0); [lra|]. cbn [obind fst snd app]. eexists. eexists [_]. eexists. split; [cbn; reflexivity|]. split; [reflexivity|]. split; [reflexivity|].
    unfold row_force, fresh_controller. cbn. unfold kp, ki. repeat destruct (Rlt_dec _ _); lra.
  - cbn [history flat_map app repeat applies apply Nat.modulo Nat.divmod Nat.eqb Nat.sub fst snd]. rewrite !channel_measure. cbn [obind fst snd].
    destruct (Req_EM_T 1 0); [lra|]. cbn [obind fst snd app]. eexists. eexists. split; [cbn; reflexivity|]. split; [reflexivity|]. split; [reflexivity|].
    unfold row_force, fresh_controller. cbn. unfold kp, ki. repeat destruct (Rlt_dec _ _); lra.
Qed.

(** ** Rescaling *)
Definition rescaled (k : R) (v : visit) : visit := {| vi_y := vi_y v; vi_rho := k * vi_rho v; vi_u := vi_u v |}.

Lemma average_rescaled k m vs q q' i : (forall v, q' (rescaled k v) = k * q v) ->
  average m (map (rescaled k) vs) q' i = obind (average m vs q i) (fun a => Ok (k * a)).
Proof.
  intros H. unfold average.
  assert (E : plane_visits m i (map (rescaled k) vs) = map (rescaled k) (plane_visits m i vs)).
  { unfold plane_visits. induction vs as [|v vs IH]; [reflexivity|]. cbn [map filter]. cbn [rescaled vi_y]. destruct (find_key (vi_y v) m) as [j|]; [destruct (Nat.eqb j i)|]; cbn [map]; rewrite IH; reflexivity. }
  rewrite E. rewrite map_length. set (l := plane_visits m i vs).
  assert (F : fold_right (fun v s => q' v + s) 0 (map (rescaled k) l) = k * fold_right (fun v s => q v + s) 0 l).
  { induction l as [|v l' IH]; cbn; [ring|]. rewrite IH, H. ring. }
  rewrite F. destruct l; [reflexivity|]. cbn [map obind]. f_equal. unfold Rdiv. ring.
Qed.
Lemma averages_rescaled k m vs q q' is : (forall v, q' (rescaled k v) = k * q v) ->
  averages m (map (rescaled k) vs) q' is = obind (averages m vs q is) (fun a => Ok (map (Rmult k) a)).
Proof.
  intros H. induction is as [|i is IH]; [reflexivity|]. cbn [averages]. rewrite (average_rescaled k m vs q q' i H), IH.
  destruct (average m vs q i); cbn [obind]; [|reflexivity|reflexivity]. destruct (averages m vs q is); reflexivity.
Qed.
Lemma windows_scaled k ys : forall avs, windows ys (map (Rmult k) avs) = k * windows ys avs.
Proof.
  induction ys as [|y0 ys IH]; intros avs; [cbn; ring|]. destruct ys as [|y1 r]; [cbn; ring|]. destruct avs as [|a0 avs]; [cbn; ring|]. destruct avs as [|a1 r']; [cbn; ring|].
  specialize (IH (a1 :: r')). cbn [map windows] in *. rewrite IH. ring.
Qed.

Lemma measure_rescaled k ps v d : calculateRhoU ps = Ok (v, d) -> calculateRhoU (map (map (rescaled k)) ps) = Ok (k * v, k * d).
Proof.
  unfold calculateRhoU. assert (Ey : updateYValues (map (map (rescaled k)) ps) = updateYValues ps).
  { unfold updateYValues. rewrite map_map. replace (map (fun x => set_of tolerant_less (map vi_y (map (rescaled k) x))) ps) with (map (fun p => set_of tolerant_less (map vi_y p)) ps); [reflexivity|].
    apply map_ext. intros p. rewrite map_map. reflexivity. }
  rewrite Ey. destruct (updateYValues ps) as [ys| |]; cbn [obind]; try discriminate. cbv zeta. rewrite <- concat_map.
  set (vs := concat ps). set (m := index_map ys).
  assert (Ex : existsb (fun v => match find_key (vi_y v) m with None => true | Some _ => false end) (map (rescaled k) vs) = existsb (fun v => match find_key (vi_y v) m with None => true | Some _ => false end) vs).
  { clearbody vs. induction vs as [|w vs IH]; [reflexivity|]. cbn. rewrite IH. reflexivity. }
  rewrite Ex. destruct (existsb _ vs); [discriminate|].
  rewrite (averages_rescaled k m vs (fun v => vi_rho v * vi_u v)) by (intros w; cbn; ring). rewrite (averages_rescaled k m vs vi_rho) by (intros w; reflexivity).
  destruct (averages m vs (fun v => vi_rho v * vi_u v) (seq 0 (length ys))) as [a| |]; cbn [obind]; try discriminate.
  destruct (averages m vs vi_rho (seq 0 (length ys))) as [r| |]; cbn [obind]; try discriminate.
  rewrite !windows_scaled. set (W := windows ys a). set (V := windows ys r). clearbody W V. destruct ys; [discriminate|]. intros H. injection H as <- <-. f_equal. f_equal; field.
Qed.

Lemma apply_rescales s target it ps c c' k rows : apply s target it ps c = Ok (c', k, rows) -> rows <> [] ->
  exists v, calculateRhoU (map (map (rescaled k)) ps) = Ok (v, 1).
Proof.
  unfold apply. destruct (Nat.eqb (it mod 10) 0).
  - destruct (calculateRhoU ps) as [[v d]| |] eqn:E; cbn [obind fst snd]; try discriminate. destruct (Req_EM_T d 0) as [|N]; [discriminate|]. intros H _. injection H as _ <- _.
    exists (1 / d * v). rewrite (measure_rescaled (1 / d) ps v d E). f_equal. f_equal. field. exact N.
  - intros H N. injection H as _ _ <-. contradiction.
Qed.

Lemma sumf_linear n (f g : nat -> R) k : sumf n (fun i => k * f i + g i) = k * sumf n f + sumf n g.
Proof. induction n as [|n IH]; cbn; [ring|rewrite IH; ring]. Qed.
Lemma sumf_same n (f g : nat -> R) : (forall i, f i = g i) -> sumf n f = sumf n g.
Proof. intros H. induction n as [|n IH]; cbn; [reflexivity|rewrite IH, H; reflexivity]. Qed.

(** The temperature before and after the populations f alone are scaled. *)
Lemma temperature_scaled gd f g u rho k : rho <> 0 -> k <> 0 -> cc_heat_gamma (gd_cfg gd) <> 1 ->
  calculateTemperature gd (scaleF k f) g u (k * rho) - calculateTemperature gd f g u rho =
  (1 / k - 1) * (sumf (st_Q (gd_L gd)) g * (cc_heat_gamma (gd_cfg gd) - 1) / (2 * rho)).
Proof.
  intros Hr Hk Hg. unfold calculateTemperature, scaleF. cbv zeta. set (L := gd_L gd).
  set (A i := sumf (st_D L) (fun a => (st_e L i a - u a) * (st_e L i a - u a)) * f i / st_cs2 L).
  assert (E1 : sumf (st_Q L) (fun i => sumf (st_D L) (fun a => (st_e L i a - u a) * (st_e L i a - u a)) * (k * f i) / st_cs2 L + g i) = k * sumf (st_Q L) A + sumf (st_Q L) g)
    by (rewrite <- sumf_linear; apply sumf_same; intros i; unfold A, Rdiv; ring).
  assert (E2 : sumf (st_Q L) (fun i => sumf (st_D L) (fun a => (st_e L i a - u a) * (st_e L i a - u a)) * f i / st_cs2 L + g i) = 1 * sumf (st_Q L) A + sumf (st_Q L) g)
    by (rewrite <- sumf_linear; apply sumf_same; intros i; unfold A, Rdiv; ring).
  rewrite E1, E2. field. repeat split; try assumption. lra.
Qed.
Lemma temperature_kept gd f g u rho k : rho <> 0 -> k <> 0 -> cc_heat_gamma (gd_cfg gd) <> 1 ->
  (calculateTemperature gd (scaleF k f) g u (k * rho) = calculateTemperature gd f g u rho <-> k = 1 \/ sumf (st_Q (gd_L gd)) g = 0).
Proof.
  intros Hr Hk Hg. pose proof (temperature_scaled gd f g u rho k Hr Hk Hg) as E. set (G := sumf (st_Q (gd_L gd)) g) in *. set (ga := cc_heat_gamma (gd_cfg gd)) in *. split.
  - intros H. rewrite H, Rminus_eq_0 in E. symmetry in E. apply Rmult_integral in E. destruct E as [E|E].
    + left. apply (Rmult_eq_reg_r (1 / k)); [|apply Rmult_integral_contrapositive_currified; [lra|apply Rinv_neq_0_compat; exact Hk]].
      replace (k * (1 / k)) with 1 by (field; exact Hk). lra.
    + right. assert (G * (ga - 1) = 0) as X.
      { replace (G * (ga - 1)) with (G * (ga - 1) / (2 * rho) * (2 * rho)) by (field; exact Hr). rewrite E. ring. }
      apply Rmult_integral in X. destruct X as [X|X]; [exact X|lra].
  - intros [->|H]; [replace (1 / 1 - 1) with 0 in E by field; lra|]. rewrite H in E. unfold Rdiv in E. lra.
Qed.

(** ** Witnesses *)
Lemma height_one : calculateRhoU [[{| vi_y := 0; vi_rho := 1; vi_u := 1 |}; {| vi_y := 1; vi_rho := 1; vi_u := 1 |}]] = Ok (1/2, 1/2).
Proof.
  rewrite (linear_profile _ 0 1 1 0).
  - f_equal. f_equal; field.
  - discriminate.
  - intros p [<-|[]]. discriminate.
  - intros v w Hv Hw. cbn in Hv, Hw. destruct Hv as [<-|[<-|[]]]; destruct Hw as [<-|[<-|[]]]; cbn [vi_y]; try (left; reflexivity); right; unfold Rabs; destruct (Rcase_abs _); lra.
  - intros v Hv. cbn in Hv. destruct Hv as [<-|[<-|[]]]; cbn [vi_y vi_rho vi_u]; repeat split; lra.
  - eexists. split; [left; reflexivity|reflexivity].
  - eexists. split; [right; left; reflexivity|reflexivity].
Qed.

Lemma tl_near a b : Rabs (a - b) <= tol -> tolerant_less a b = false.
Proof. intros H. unfold tolerant_less. unfold tol in H. destruct (Rlt_dec _ _); [lra|reflexivity]. Qed.

Definition near : R := 2 + 1/1000000000.
Definition noisy : list (list visit) :=
  [[{| vi_y := 0; vi_rho := 1; vi_u := 1 |}; {| vi_y := 2; vi_rho := 1; vi_u := 1 |}]; [{| vi_y := 0; vi_rho := 1; vi_u := 1 |}; {| vi_y := near; vi_rho := 1; vi_u := 1 |}]].
Lemma noisy_undefined : calculateRhoU noisy = UB.
Proof.
  assert (N : near = 2 + 1/1000000000) by reflexivity. assert (T : tol = 1/1000000) by reflexivity.
  assert (a1 : tolerant_less 0 2 = true) by (apply tl_true; lra). assert (a2 : tolerant_less 0 near = true) by (apply tl_true; lra).
  assert (a3 : tolerant_less 2 near = false) by (apply tl_near; rewrite Rabs_left; lra).
  assert (a4 : tolerant_less near 2 = false) by (apply tl_near; rewrite Rabs_right; lra).
  assert (a5 : tolerant_less 0 0 = false) by (apply tl_false; lra). assert (a6 : tolerant_less 2 2 = false) by (apply tl_false; lra).
  assert (a7 : tolerant_less 2 0 = false) by (apply tl_false; lra). assert (a8 : tolerant_less near 0 = false) by (apply tl_false; lra).
  assert (b1 : exact_less 0 2 = true) by (unfold exact_less; destruct (Rlt_dec 0 2); [reflexivity|lra]).
  assert (b2 : exact_less 0 near = true) by (unfold exact_less; destruct (Rlt_dec 0 near); [reflexivity|lra]).
  assert (b3 : exact_less 2 near = true) by (unfold exact_less; destruct (Rlt_dec 2 near); [reflexivity|lra]).
  assert (b4 : exact_less 0 0 = false) by (unfold exact_less; destruct (Rlt_dec 0 0); [lra|reflexivity]).
  assert (EY : updateYValues noisy = Ok [0; 2; near]).
  { unfold updateYValues, noisy, set_of. cbn [map vi_y fold_left put]. rewrite a1, a2. cbn [map fst existsb negb andb orb app concat fold_left put].
    rewrite b1. cbn [put]. rewrite b4. cbn [put]. rewrite b2, b3. cbn. reflexivity. }
  assert (EM : index_map [0; 2; near] = [(0, 0%nat); (2, 1%nat)]).
  { unfold index_map. cbn [fold_left fst snd put]. rewrite a1. cbn [put]. rewrite a2, a3, a4. reflexivity. }
  unfold calculateRhoU. rewrite EY. cbn [obind]. cbv zeta. rewrite EM.
  assert (F0 : find_key 0 [(0, 0%nat); (2, 1%nat)] = Some O) by (cbn; rewrite a5; reflexivity).
  assert (F2 : find_key 2 [(0, 0%nat); (2, 1%nat)] = Some 1%nat) by (cbn; rewrite a1, a6; reflexivity).
  assert (Fn : find_key near [(0, 0%nat); (2, 1%nat)] = Some 1%nat) by (cbn; rewrite a2, a3, a4; reflexivity).
  assert (EX : existsb (fun v => match find_key (vi_y v) [(0, 0%nat); (2, 1%nat)] with None => true | Some _ => false end) (concat noisy) = false).
  { cbn [noisy concat app existsb vi_y]. rewrite F0, F2, Fn. reflexivity. }
  rewrite EX.
  assert (EP : forall i, plane_visits [(0, 0%nat); (2, 1%nat)] i (concat noisy) =
    (if Nat.eqb 0 i then [{| vi_y := 0; vi_rho := 1; vi_u := 1 |}] else []) ++ (if Nat.eqb 1 i then [{| vi_y := 2; vi_rho := 1; vi_u := 1 |}] else []) ++
    (if Nat.eqb 0 i then [{| vi_y := 0; vi_rho := 1; vi_u := 1 |}] else []) ++ (if Nat.eqb 1 i then [{| vi_y := near; vi_rho := 1; vi_u := 1 |}] else [])).
  { intros i. unfold plane_visits. cbn [noisy concat app filter vi_y]. rewrite F0, F2, Fn. destruct (Nat.eqb 0 i); destruct (Nat.eqb 1 i); reflexivity. }
  cbn [length seq averages]. unfold average. rewrite !EP. cbn. reflexivity.
Qed.

Lemma idle_process : calculateRhoU [[{| vi_y := 0; vi_rho := 1; vi_u := 1 |}]; []] = UB.
Proof. reflexivity. Qed.
