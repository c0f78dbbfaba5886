(** Concrete elements for the statistics: examples and witnesses. *)
From Coq Require Import NArith Permutation Psatz.
From Verif Require Import Prelude BigSum ModelErrors ModelStatistics SpecStatistics ProofStatistics ProofStatistics2 ProofStatistics3.
Local Open Scope R_scope.

Ltac crunch := cbv -[Rplus Rmult Ropp Rinv Rdiv Rminus IZR sqrt ln Rpower Rlt Rle].

Definition square : fe_cell := multilinear2 1 lobatto_points.
Definition wide_square : fe_cell := multilinear2 2 lobatto_points.
Definition gauss_square : fe_cell := multilinear2 1 gauss_points.
Definition cube : fe_cell := multilinear3 1 lobatto_points.

Ltac each_lt4 q := destruct q as [|[|[|[|q]]]]; [| | | |exfalso; lia].

Lemma square_collocated : collocated 4 4 [square].
Proof.
  split; [reflexivity|]. intros c i q [<-|[]] Hi Hq. each_lt4 i; each_lt4 q; crunch; lra.
Qed.
Lemma square_weights h pts : h <> 0 -> positive_weights 4 [multilinear2 h pts].
Proof.
  intros Hh c q [<-|[]] _. unfold multilinear2. cbn [fc_JxW]. assert (0 < h ^ 2) by (rewrite <- Rsqr_pow2; apply Rsqr_pos_lt; exact Hh). lra.
Qed.
Lemma square_volume h pts : volume 4 [multilinear2 h pts] = h ^ 2.
Proof. unfold volume, integral, multilinear2. cbn [suml sumf fc_JxW]. field. Qed.
Lemma square_unity h pts : partition_of_unity 4 4 [multilinear2 h pts].
Proof.
  intros c q [<-|[]] Hq. each_lt4 q; unfold multilinear2; cbn [fc_shape sumf]; unfold lin; cbn [bit Nat.modulo Nat.div Nat.pow Nat.divmod fst snd Nat.mul Nat.add Nat.sub]; ring.
Qed.
Lemma square_shares h : forall c i, In c [multilinear2 h lobatto_points] -> (i < 4)%nat ->
  sumf 4 (fun q => fc_shape c i q * fc_JxW c q) = sumf 4 (fc_JxW c) / INR 4.
Proof. intros c i [<-|[]] Hi. each_lt4 i; crunch; field. Qed.

(** A velocity that changes sign across the cell, integrated with the Gauss rule. *)
Definition swing : nat -> field := fun a l => match a with O => 2 * INR (bit l 0) - 1 | _ => 0 end.
Definition plane_setting (c : fe_cell) : setting :=
  {| st_dim := 2; st_dofs_per_cell := 4; st_n_q := 4; st_ranks := [[c]]; st_owned := [[0; 1; 2; 3]%nat]; st_Q := 1; st_weights := fun _ => 1; st_sound := 1 |}.

Lemma sqrt3_sq : sqrt 3 * sqrt 3 = 3. Proof. apply sqrt_sqrt. lra. Qed.

Lemma gauss_energy : kineticEnergy (plane_setting gauss_square) swing (fun _ => 1) = 1/2.
Proof.
  crunch. generalize (sqrt 3). intros s. field.
Qed.
Lemma gauss_energy_true : integral 4 [gauss_square] (fun c q => at_point 4 (fun _ => 1) c q * speed_sq 2 4 swing c q / 2) = 1/6.
Proof.
  pose proof sqrt3_sq as E. crunch. revert E. generalize (sqrt 3). intros s E.
  match goal with |- ?L = _ => replace L with (s * s / 18); [rewrite E; field|field] end.
Qed.

Lemma energy_refuted : exists g u rho, (st_dim g = 2)%nat /\ partition_of_unity (st_dofs_per_cell g) (st_n_q g) (concat (st_ranks g)) /\
  positive_weights (st_n_q g) (concat (st_ranks g)) /\
  kineticEnergy g u rho = 3 * integral (st_n_q g) (concat (st_ranks g)) (fun c q => at_point (st_dofs_per_cell g) rho c q * speed_sq (st_dim g) (st_dofs_per_cell g) u c q / 2)
  /\ 0 < kineticEnergy g u rho.
Proof.
  exists (plane_setting gauss_square), swing, (fun _ => 1). split; [reflexivity|].
  split; [apply square_unity|]. split; [apply square_weights; lra|]. rewrite gauss_energy. split; [|lra].
  change (1 / 2 = 3 * integral 4 [gauss_square] (fun c q => at_point 4 (fun _ => 1) c q * speed_sq 2 4 swing c q / 2)).
  rewrite gauss_energy_true. field.
Qed.

(** A rigid rotation in three dimensions. *)
Definition rotation : nat -> field := fun a l => match a with O => - INR (bit l 1) | S O => INR (bit l 0) | _ => 0 end.
Lemma rotation_slopes : forall c q i k, In c [cube] -> (q < 8)%nat ->
  slope 8 (rotation i) c q k = match i, k with O, S O => -1 | S O, O => 1 | _, _ => 0 end.
Proof.
  intros c q i k [<-|[]] Hq.
  destruct q as [|[|[|[|[|[|[|[|q]]]]]]]]; [| | | | | | | |exfalso; lia];
    destruct i as [|[|i]]; destruct k as [|[|[|k]]]; crunch; lra.
Qed.
Lemma cube_volume : volume 8 [cube] = 1.
Proof. crunch. lra. Qed.
Lemma rotation_enstrophy : fst (enstrophy3 8 8 [[cube]] rotation) = 2 /\ integral 8 (concat [[cube]]) (curl_sq 3 8 rotation) = 4.
Proof.
  split.
  - destruct (enstrophy3_summary 8 8 [[cube]] rotation) as [E _]. rewrite E. change (concat [[cube]]) with [cube].
    rewrite (integral_ext 8 [cube] _ (fun _ _ => 2)); [rewrite integral_const, cube_volume; ring|].
    intros c q Hc Hq. cbn [sumf]. rewrite !rotation_slopes by assumption. ring.
  - change (concat [[cube]]) with [cube].
    rewrite (integral_ext 8 [cube] _ (fun _ _ => 4)); [rewrite integral_const, cube_volume; ring|].
    intros c q Hc Hq. unfold curl_sq. cbn [Nat.eqb]. cbv zeta. rewrite !rotation_slopes by assumption. ring.
Qed.

(** The column of the global statistics for the same state: entry number 143 (three dimensions). *)
Lemma enstrophy_refuted : exists n nq ranks u,
  partition_of_unity n nq (concat ranks) /\ positive_weights nq (concat ranks) /\
  fst (enstrophy3 n nq ranks u) = 2 /\ integral nq (concat ranks) (curl_sq 3 n u) = 4 /\
  (forall it t rho, exists k, In (k, LEnstrophy) (global_legend 3) /\ nth_error (global_row 3 n nq ranks it t rho u) (k - 1) = Some 4).
Proof.
  exists 8%nat, 8%nat, [[cube]], rotation. destruct rotation_enstrophy as [A B].
  split; [|split; [|split; [exact A|split; [exact B|]]]].
  - intros c q [<-|[]] Hq. destruct q as [|[|[|[|[|[|[|[|q]]]]]]]]; [| | | | | | | |exfalso; lia]; crunch; lra.
  - intros c q [<-|[]] Hq. crunch. lra.
  - intros it t rho.
    assert (I : exists k, In (k, LEnstrophy) (global_legend 3)).
    { unfold global_legend. cbv zeta. exists (3 + (16 + 136 + 16 + 16 + 1))%nat. right. right.
      vm_compute. repeat (first [left; reflexivity|right]). }
    destruct I as [k I]. exists k. split; [exact I|].
    destruct (legend_summary 3 8 8 [[cube]] it t rho rotation (or_intror eq_refl)) as [L _]. cbv zeta in L.
    destruct (L k LEnstrophy I ltac:(discriminate)) as [_ E]. rewrite E. cbn [legend_integral]. f_equal. exact B.
Qed.

(** The parabola of a channel flow on one quadratic element. *)
Definition parabola : field := fun l => 4 * (INR (Nat.div l 3) / 2) * (1 - INR (Nat.div l 3) / 2).
Lemma biquadratic_collocated : collocated 9 9 [biquadratic].
Proof. split; [reflexivity|]. intros c i q [<-|[]] _ _. reflexivity. Qed.
Lemma biquadratic_weights : positive_weights 9 [biquadratic].
Proof.
  intros c q [<-|[]] Hq. destruct q as [|[|[|[|[|[|[|[|[|q]]]]]]]]]; [| | | | | | | | |exfalso; lia]; crunch; lra.
Qed.
Lemma biquadratic_volume : volume 9 [biquadratic] = 1. Proof. crunch. lra. Qed.
Lemma parabola_true : domain_mean 9 [biquadratic] (at_point 9 parabola) = 2/3.
Proof.
  unfold domain_mean. rewrite biquadratic_volume.
  rewrite (integral_ext 9 [biquadratic] _ (fun c q => parabola (fc_dof c q))).
  - crunch. field.
  - intros c q Hc Hq. apply (at_point_collocated 9 9 [biquadratic]); auto using biquadratic_collocated.
Qed.
Lemma parabola_mean : meanVelocityX 9 9 [[biquadratic]] parabola = Some (1/3).
Proof.
  rewrite mean_value; [|lia|change (concat [[biquadratic]]) with [biquadratic]; rewrite biquadratic_volume; lra].
  change (concat [[biquadratic]]) with [biquadratic]. f_equal. rewrite biquadratic_volume.
  rewrite (integral_ext 9 [biquadratic] _ (fun _ _ => 3)).
  - rewrite integral_const, biquadratic_volume. simpl INR. field.
  - intros c q [<-|[]] _. crunch. field.
Qed.
Lemma parabola_profile : forall l, (l < 9)%nat -> let y := INR (Nat.div l 3) / 2 in parabola l = 4 * y * (1 - y).
Proof. intros. reflexivity. Qed.

Lemma mean_refuted : exists n nq ranks ux, collocated n nq (concat ranks) /\ positive_weights nq (concat ranks) /\ volume nq (concat ranks) = 1 /\
  domain_mean nq (concat ranks) (at_point n ux) = 2/3 /\ meanVelocityX n nq ranks ux = Some (1/3).
Proof.
  exists 9%nat, 9%nat, [[biquadratic]], parabola.
  split; [apply biquadratic_collocated|]. split; [apply biquadratic_weights|]. split; [apply biquadratic_volume|].
  split; [apply parabola_true|apply parabola_mean].
Qed.

(** Entropy of uniform populations. *)
Lemma entropy_refuted : exists n nq ranks Q w F, volume nq (concat ranks) = 1 /\ partition_of_unity n nq (concat ranks) /\
  (forall j, (j < Q)%nat -> 0 < F j /\ 0 < w j) /\
  entropy n nq ranks Q w (fun j _ => F j) = Some (4 * (volume nq (concat ranks) * - sumf Q (fun j => F j * ln (F j / w j)))) /\
  volume nq (concat ranks) * - sumf Q (fun j => F j * ln (F j / w j)) < 0.
Proof.
  exists 4%nat, 4%nat, [[square]], 1%nat, (fun _ => 1), (fun _ => 2).
  assert (V : volume 4 (concat [[square]]) = 1) by (change (volume 4 [square] = 1); unfold square; rewrite square_volume; ring).
  split; [exact V|]. split; [apply square_unity|]. split; [intros; lra|]. split.
  - destruct (entropy_summary 4 4 [[square]] 1 (fun _ => 1)) as [E _]. cbv zeta in E. rewrite E by (intros; lra).
    f_equal. f_equal. simpl INR. ring.
  - rewrite V. cbn [sumf]. assert (0 < ln (2 / 1)); [|lra]. rewrite <- ln_1. apply ln_increasing; lra.
Qed.

(** Averages of the global statistics on a square with side 2. *)
Lemma global_average_refuted : exists n nq ranks rho u, partition_of_unity n nq (concat ranks) /\ volume nq (concat ranks) = 4 /\
  forall it t, exists k, In (k, LMean ORho) (global_legend 2) /\ domain_mean nq (concat ranks) (at_point n rho) = 1 /\
    nth_error (global_row 2 n nq ranks it t rho u) (k - 1) = Some 4.
Proof.
  exists 4%nat, 4%nat, [[wide_square]], (fun _ => 1), swing. change (concat [[wide_square]]) with [wide_square].
  assert (V : volume 4 [wide_square] = 4) by (unfold wide_square; rewrite square_volume; ring).
  assert (A : integral 4 [wide_square] (at_point 4 (fun _ => 1)) = 4).
  { rewrite (integral_ext 4 [wide_square] _ (fun _ _ => 1)); [rewrite integral_const, V; ring|].
    intros c q Hc Hq. apply (at_point_const 4 4 [wide_square]); auto. apply square_unity. }
  split; [apply square_unity|]. split; [exact V|]. intros it t. exists 3%nat. split; [right; right; left; reflexivity|]. split.
  - unfold domain_mean. rewrite A, V. field.
  - destruct (legend_summary 2 4 4 [[wide_square]] it t (fun _ => 1) swing (or_introl eq_refl)) as [L _]. cbv zeta in L.
    destruct (L 3%nat (LMean ORho) ltac:(right; right; left; reflexivity) ltac:(discriminate)) as [_ E]. rewrite E. f_equal. exact A.
Qed.

Lemma legend_time_refuted : forall dim, (dim = 2 \/ dim = 3)%nat ->
  (forall k, In (k, LTime) (global_legend dim) -> k = 3%nat) /\ In (3%nat, LTime) (global_legend dim) /\ (forall x, ~ In (2%nat, x) (global_legend dim)) /\
  (forall n nq ranks it t rho u, nth_error (global_row dim n nq ranks it t rho u) 1 = Some t /\
     nth_error (global_row dim n nq ranks it t rho u) 2 = Some (integral nq (concat ranks) (at_point n rho))).
Proof.
  intros dim D. assert (T : forall k x, In (k, x) (number_from 3 (legend_texts dim)) -> (3 <= k)%nat /\ x <> LTime).
  { intros k x H. apply number_from_in in H. destruct H as [L E]. split; [exact L|]. intros ->. apply nth_error_In in E. unfold legend_texts in E. clear -E D.
    destruct D as [->| ->]; cbn in E; repeat (destruct E as [E|E]; [discriminate|]); contradiction. }
  split; [|split; [right; left; reflexivity|split]].
  - intros k [H|[H|H]].
    + discriminate.
    + congruence.
    + exfalso. destruct (T k LTime H) as [_ Nn]. congruence.
  - intros x [H|[H|H]]; [congruence|congruence|]. destruct (T _ _ H) as [L _]. lia.
  - intros n nq ranks it t rho u. rewrite global_row_meaning by exact D. split; [reflexivity|].
    destruct D as [->| ->]; reflexivity.
Qed.

(** Compressible statistics: legend and total energy. *)
Definition at_rest : nat -> field := fun _ _ => 0.
Lemma compressible_legend_refuted : exists dim n nq ranks gamma it t rho u T row, (dim = 2)%nat /\
  compressible_row dim n nq ranks gamma it t rho u T = Some row /\
  In (0%nat, KDilatation) compressible_legend /\ nth_error row 0 = Some 7 /\ (forall c q, In c (concat ranks) -> (q < nq)%nat -> div dim n u c q = 0) /\
  In (2%nat, KMaxMach) compressible_legend /\ nth_error row 2 = Some 0 /\ nth_error row 4 = Some 1.
Proof.
  set (u := fun (a l : nat) => match a with O => 1 | _ => 0 end : R).
  assert (P : forall c q, In c (concat [[square]]) -> (q < 4)%nat -> 0 < at_point 4 (fun _ => 1) c q).
  { intros c q Hc Hq. rewrite (at_point_const 4 4 [square] 1 c q); [lra|apply square_unity|exact Hc|exact Hq]. }
  assert (DV : forall c q, In c [square] -> (q < 4)%nat -> div 2 4 u c q = 0).
  { intros c q [<-|[]] Hq. each_lt4 q; crunch; lra. }
  destruct (compressible_summary 2 4 4 [[square]] 1 7%N 0 (fun _ => 1) u (fun _ => 1) (or_introl eq_refl) P) as [m [E [_ A]]].
  exists 2%nat, 4%nat, 4%nat, [[square]], 1, 7%N, 0, (fun _ => 1), u, (fun _ => 1). eexists. split; [reflexivity|]. split; [exact E|].
  change (concat [[square]]) with [square] in *.
  split; [left; reflexivity|]. split; [reflexivity|]. split; [exact DV|]. split; [right; right; left; reflexivity|]. split.
  - cbn [nth_error]. f_equal. rewrite (integral_ext 4 [square] _ (fun _ _ => 0)).
    + rewrite integral_const. ring.
    + intros c q Hc Hq. rewrite DV by assumption. ring.
  - cbn [nth_error]. f_equal. destruct A as [c [q [Hc [Hq A]]]]; [discriminate|lia|lra|]. rewrite A.
    assert (S : speed_sq 2 4 u c q = 1).
    { unfold speed_sq. cbn [sumf]. change (u 0%nat) with (fun _ : nat => 1). change (u 1%nat) with (fun _ : nat => 0).
      rewrite (at_point_const 4 4 [square] 1 c q (square_unity 1 _) Hc Hq), (at_point_const 4 4 [square] 0 c q (square_unity 1 _) Hc Hq). ring. }
    rewrite S, (at_point_const 4 4 [square] 1 c q (square_unity 1 _) Hc Hq), Rmult_1_l, sqrt_1. field.
Qed.

Lemma total_energy_refuted : exists dim n nq ranks gamma it t T rhoA uA rowA rhoB uB rowB, (dim = 2)%nat /\
  compressible_row dim n nq ranks gamma it t rhoA uA T = Some rowA /\ compressible_row dim n nq ranks gamma it t rhoB uB T = Some rowB /\
  nth_error rowA 5 = nth_error rowB 5 /\ nth_error rowA 5 <> None /\
  forall cv, 0 < cv -> let total rho u := integral nq (concat ranks) (fun c q => at_point n rho c q * (cv * at_point n T c q + speed_sq dim n u c q / 2)) in
    0 < total rhoA uA /\ total rhoB uB > 2 * total rhoA uA.
Proof.
  set (u := fun (a l : nat) => match a with O => 1 | _ => 0 end : R).
  assert (P : forall c q, In c (concat [[square]]) -> (q < 4)%nat -> 0 < at_point 4 (fun _ => 1) c q).
  { intros c q Hc Hq. rewrite (at_point_const 4 4 [square] 1 c q); [lra|apply square_unity|exact Hc|exact Hq]. }
  destruct (compressible_summary 2 4 4 [[square]] 1 7%N 0 (fun _ => 1) at_rest (fun _ => 1) (or_introl eq_refl) P) as [m [E _]].
  destruct (compressible_summary 2 4 4 [[square]] 1 7%N 0 (fun _ => 2) u (fun _ => 1) (or_introl eq_refl) P) as [m' [E' _]].
  exists 2%nat, 4%nat, 4%nat, [[square]], 1, 7%N, 0, (fun _ => 1), (fun _ => 1), at_rest. eexists. exists (fun _ => 2), u. eexists.
  split; [reflexivity|]. split; [exact E|]. split; [exact E'|]. split; [reflexivity|]. split; [discriminate|].
  intros cv Hcv. cbv zeta.
  assert (V : volume 4 [square] = 1) by (unfold square; rewrite square_volume; ring).
  assert (K : forall k c q, In c [square] -> (q < 4)%nat -> at_point 4 (fun _ => k) c q = k)
    by (intros; apply (at_point_const 4 4 [square]); auto; apply square_unity).
  assert (TA : integral 4 [square] (fun c q => at_point 4 (fun _ => 1) c q * (cv * at_point 4 (fun _ => 1) c q + speed_sq 2 4 at_rest c q / 2)) = cv).
  { rewrite (integral_ext 4 [square] _ (fun _ _ => cv)); [rewrite integral_const, V; ring|].
    intros c q Hc Hq. unfold speed_sq. cbn [sumf]. change (at_rest 0%nat) with (fun _ : nat => 0). change (at_rest 1%nat) with (fun _ : nat => 0).
    rewrite !K by assumption. field. }
  assert (TB : integral 4 [square] (fun c q => at_point 4 (fun _ => 2) c q * (cv * at_point 4 (fun _ => 1) c q + speed_sq 2 4 u c q / 2)) = 2 * cv + 1).
  { rewrite (integral_ext 4 [square] _ (fun _ _ => 2 * cv + 1)); [rewrite integral_const, V; ring|].
    intros c q Hc Hq. unfold speed_sq. cbn [sumf]. change (u 0%nat) with (fun _ : nat => 1). change (u 1%nat) with (fun _ : nat => 0).
    rewrite !K by assumption. field. }
  split.
  - match goal with |- 0 < ?x => replace x with cv by (symmetry; exact TA) end. exact Hcv.
  - match goal with |- ?y > 2 * ?x => replace x with cv by (symmetry; exact TA); replace y with (2 * cv + 1) by (symmetry; exact TB) end. lra.
Qed.

(** Planes: three rows of points at 0, 1 and 4; the smallest distance is 1. *)
Definition rows3 : nat -> nat -> R := fun i a => match a with O => INR (Nat.modulo i 2) | _ => match Nat.div i 2 with O => 0 | S O => 1 | _ => 4 end end.
Lemma plane_empty : exists support owned d x, 0 < d /\ NoDup (concat owned) /\ concat owned <> [] /\
  (forall i j, In i (concat owned) -> In j (concat owned) -> Rabs (support i 1%nat - support j 1%nat) < d -> support i 1%nat = support j 1%nat) /\
  (exists i j, In i (concat owned) /\ In j (concat owned) /\ support i 1%nat < x < support j 1%nat) /\
  forall u a, plane_calculate (map (updatePlaneIndices support 1 x (plane_tolerance d)) owned) u a = None.
Proof.
  exists rows3, [[0; 1; 2]; [3; 4; 5]]%nat, 1, (5/2). split; [lra|]. cbn [concat app].
  assert (ND : NoDup [0; 1; 2; 3; 4; 5]%nat) by (repeat constructor; simpl; lia).
  split; [exact ND|]. split; [discriminate|].
  assert (Sep : forall i j, In i [0; 1; 2; 3; 4; 5]%nat -> In j [0; 1; 2; 3; 4; 5]%nat -> Rabs (rows3 i 1%nat - rows3 j 1%nat) < 1 -> rows3 i 1%nat = rows3 j 1%nat).
  { assert (C : forall i, In i [0; 1; 2; 3; 4; 5]%nat -> rows3 i 1%nat = 0 \/ rows3 i 1%nat = 1 \/ rows3 i 1%nat = 4).
    { intros i Hi. unfold rows3. destruct (Nat.div i 2) as [|[|k]]; auto. }
    intros i j Hi Hj. destruct (C i Hi) as [->|[->| ->]]; destruct (C j Hj) as [->|[->| ->]]; unfold Rabs; destruct (Rcase_abs _); lra. }
  split; [exact Sep|]. split; [exists 2%nat, 4%nat; split; [simpl; auto|]; split; [simpl; auto 10|crunch; lra]|].
  intros u a. destruct (plane_summary rows3 1 (5/2) (plane_tolerance 1) [[0; 1; 2]; [3; 4; 5]]%nat ND [] (NoDup_nil _)) with (u := u) (a := a) as [A _].
  - intros i. split; [intros []|]. intros [Hi H]. unfold plane_tolerance in H. unfold rows3 in H. destruct (Nat.div i 2) as [|[|k]]; unfold Rabs in H; destruct (Rcase_abs _); lra.
  - apply A. reflexivity.
Qed.

(** Three points of a quadratic element in the plane, the profile 4 x (1 - x). *)
Lemma plane_mean_refuted : exists (support : nat -> nat -> R) owned d (F : R -> R) u, NoDup (concat owned) /\ 0 < d /\
  (forall x, derivable_pt_lim F x (4 * x * (1 - x))) /\ F 1 - F 0 = 2/3 /\
  (forall i, In i (concat owned) -> support i 1%nat = 0 /\ u 0%nat i = 4 * support i 0%nat * (1 - support i 0%nat)) /\
  exists rms, plane_calculate (map (updatePlaneIndices support 1 0 (plane_tolerance d)) owned) u 0 = Some (1/3, rms).
Proof.
  exists (fun i a => match a with O => INR i / 2 | _ => 0 end), [[0; 1; 2]%nat], (1/2), (fun x => 2 * x ^ 2 - 4/3 * x ^ 3),
    (fun a i => 4 * (INR i / 2) * (1 - INR i / 2)).
  assert (ND : NoDup [0; 1; 2]%nat) by (repeat constructor; simpl; lia).
  cbn [concat app]. split; [exact ND|]. split; [lra|]. split.
  { intros x. replace (4 * x * (1 - x)) with (2 * (INR 2 * x ^ Nat.pred 2) - 4/3 * (INR 3 * x ^ Nat.pred 3)) by (simpl; field).
    apply derivable_pt_lim_minus; apply derivable_pt_lim_scal; apply derivable_pt_lim_pow. }
  split; [field|]. split; [intros; split; reflexivity|].
  destruct (plane_summary (fun i a => match a with O => INR i / 2 | _ => 0 end) 1 0 (plane_tolerance (1/2)) [[0; 1; 2]%nat] ND [0; 1; 2]%nat ND)
    with (u := fun (a i : nat) => 4 * (INR i / 2) * (1 - INR i / 2)) (a := 0%nat) as [_ A].
  - intros i. cbn [concat app]. split; [|tauto]. intros Hi. split; [exact Hi|]. unfold Rminus. rewrite Rplus_opp_r, Rabs_R0. unfold plane_tolerance. lra.
  - destruct A as [av [rms [E [M _]]]]; [discriminate|]. exists rms. cbv zeta in E. rewrite E, M. do 2 f_equal. unfold mean_of. cbn [suml length]. simpl INR. field.
Qed.
