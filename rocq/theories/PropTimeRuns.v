(** C151: whole runs of the time integrators (convergence, energy). *)
From Verif Require Import Prelude BigSum ModelTimeIntegration SpecTimeIntegration SpecTimeRuns ProofTimeIntegration
  ProofTimeIntegration2 ProofTimeIntegration3 ProofTimeIntegration4 ProofTimeRuns ProofTimeRuns2 PropTimeIntegration.
Local Open Scope R_scope.

(** Runge-Kutta: after [m] steps of length h the populations differ from the solution of the differential equation by
    O(h^4), apart from the rounding of the published coefficients.  All systems, starts, numbers and lengths of steps. *)
Theorem C151_runge_kutta : forall n A b L M former m s D,
  bounded_rows n A L -> 0 <= L -> 0 < sg_dt s -> solution n A b D -> (forall i, (i < n)%nat -> D 0%nat 0 i = sg_f s i) ->
  (forall k t i, (1 <= k <= 5)%nat -> 0 <= t <= INR m * sg_dt s -> (i < n)%nat -> Rabs (D k t i) <= M) ->
  exists s', stream_times (rk5_step n) former A b m s = Ok s' /\ forall i, (i < n)%nat ->
    let h := sg_dt s in let T := INR m * h in
    Rabs (sg_f s' i - D 0%nat T i)
    <= T * (M * (h ^ 4 / 70 + / 100000000000000000000 * (1 + h + h ^ 2 + h ^ 3))) * exp ((1 + / 10000000000) * (L * T)).
Proof. exact rk_global. Qed.
Print Assumptions C151_runge_kutta.
Example C151_runge_kutta_ex : forall m h, 0 < h -> exists s', stream_times (rk5_step 1) (fun _ => false) (fun _ _ => 1) nothing m
    (mkSedg (fun _ => 1) (fun _ => 0) (fun _ => 0) h 0) = Ok s' /\
  Rabs (sg_f s' 0%nat - exp (INR m * h)) <= INR m * h * (exp (INR m * h) * (h ^ 4 / 70 + / 100000000000000000000 * (1 + h + h ^ 2 + h ^ 3))) * exp ((1 + / 10000000000) * (1 * (INR m * h))).
Proof.
  intros m h Hh.
  destruct (C151_runge_kutta 1 (fun _ _ => 1) nothing 1 (exp (INR m * h)) (fun _ => false) m (mkSedg (fun _ => 1) (fun _ => 0) (fun _ => 0) h 0) (fun _ t _ => exp t)) as (s' & E & H).
  - intros i _. cbn. rewrite Rabs_R1. lra.
  - lra.
  - exact Hh.
  - exact exp_solution.
  - intros i _. cbn. apply exp_0.
  - intros k t i _ Ht _. cbn [sg_dt] in Ht. apply exp_bounded; [lra|exact Ht].
  - exists s'. split; [exact E|]. exact (H 0%nat ltac:(lia)).
Qed.

(** Theta method, exact linear solver: the distance to any steady state after a step, exactly. *)
Theorem C151_theta_energy : forall solve theta n A b w h f r g,
  solves n 0 solve -> steady n A b g -> theta_step solve theta n h f A b 0 h = Ok r ->
  let x := fun i => theta * (sp_f r i - g i) + (1 - theta) * (f i - g i) in
  wdot n w (fun i => sp_f r i - g i) (fun i => sp_f r i - g i)
  = wdot n w (fun i => f i - g i) (fun i => f i - g i)
    + 2 * h * wdot n w x (fun i => sumf n (fun j => A i j * x j))
    - (2 * theta - 1) * wdot n w (fun i => sp_f r i - f i) (fun i => sp_f r i - f i).
Proof. intros solve theta n A b w h f r g HS. exact (theta_energy solve theta n A b w HS h f r g). Qed.
Print Assumptions C151_theta_energy.

(** Transport that takes energy out of every state (C61) is not amplified by any number of steps of any length, if theta
    is at least 1/2. *)
Theorem C151_theta_stable : forall solve theta n A b w former m s s' g,
  solves n 0 solve -> (forall i, (i < n)%nat -> 0 <= w i) -> dissipative n A w -> 1 / 2 <= theta <= 1 -> steady n A b g ->
  stream_times (theta_step solve theta n) former A b m s = Ok s' ->
  wnorm n w (fun i => sg_f s' i - g i) <= wnorm n w (fun i => sg_f s i - g i).
Proof. intros solve theta n A b w former m s s' g HS Hw HA Ht. exact (theta_run_stable solve theta n A b w HS Hw HA Ht former m s s' g). Qed.
Print Assumptions C151_theta_stable.

(** ... and the run converges to the solution: O(h^2) for theta = 1/2, O(h) otherwise, without any restriction of the step. *)
Theorem C151_theta_converges : forall solve theta n A b w D M2 M3 former m s s',
  solves n 0 solve -> (forall i, (i < n)%nat -> 0 <= w i) -> dissipative n A w -> 1 / 2 <= theta <= 1 ->
  solution n A b D -> (forall i, (i < n)%nat -> D 0%nat 0 i = sg_f s i) ->
  (forall t i, 0 <= t <= INR m * sg_dt s -> (i < n)%nat -> Rabs (D 2%nat t i) <= M2) ->
  (forall t i, 0 <= t <= INR m * sg_dt s -> (i < n)%nat -> Rabs (D 3%nat t i) <= M3) -> 0 <= M2 -> 0 <= M3 ->
  stream_times (theta_step solve theta n) former A b m s = Ok s' ->
  let h := sg_dt s in let T := INR m * h in
  wnorm n w (fun i => sg_f s' i - D 0%nat T i)
  <= 2 * T * h * ((theta - 1 / 2) * M2 + (1 / 6 + theta / 2) * h * M3) * sqrt (sumf n w).
Proof.
  intros solve theta n A b w D M2 M3 former m s s' HS Hw HA Ht. exact (theta_global solve theta n A b w HS Hw HA Ht D M2 M3 former m s s').
Qed.
Print Assumptions C151_theta_converges.

(** A decaying system, its solution, and a run of any length. *)
Definition decay : nat -> nat -> R := fun _ _ => -1.
Definition decay_solution (k : nat) (t : R) (_ : nat) : R := (-1) ^ k * exp (- t).
Example decay_dissipative : dissipative 1 decay (fun _ => 1).
Proof. intros x. unfold wdot, decay. cbn. nra. Qed.
Example decay_solves : solution 1 decay nothing decay_solution.
Proof.
  split.
  - intros k t i _. unfold decay_solution. replace ((-1) ^ S k * exp (- t)) with ((-1) ^ k * (exp (- t) * - (1))) by (cbn [pow]; ring).
    apply (derivable_pt_lim_scal (fun s => exp (- s))). apply (derivable_pt_lim_comp (fun s => - s) exp); [|apply derivable_pt_lim_exp].
    apply (derivable_pt_lim_opp (fun s => s)). apply derivable_pt_lim_id.
  - intros t i _. unfold rhs, decay, decay_solution, nothing. cbn. ring.
Qed.
Example decay_runs : forall theta m h, 0 < h -> 1 / 2 <= theta <= 1 ->
  exists s', stream_times (theta_step solve1 theta 1) (fun _ => false) decay nothing m (mkSedg (fun _ => 1) (fun _ => 0) (fun _ => 0) h 0) = Ok s'.
Proof.
  intros theta m h Hh Ht. induction m as [|m [s1 E]]; [cbn; eauto|]. cbn [stream_times]. rewrite E. cbn [obind].
  assert (D : sg_dt s1 = h).
  { apply (stream_times_inv 1 decay nothing (fun _ => 0)) in E; [apply E|]. apply theta_step_ok; [exact solve1_exact|apply zero_conserved]. }
  unfold sedg_stream, theta_step, resolve_dt. rewrite D. destruct (Req_EM_T h 0) as [Z|Z]; [lra|]. destruct (Req_EM_T h h) as [_|Z']; [|lra].
  cbn [obind]. unfold solve1 at 1. destruct (Req_EM_T _ 0) as [Q|Q].
  - exfalso. unfold decay, delta in Q. cbn in Q. nra.
  - cbn [obind sp_t fst snd]. unfold setTimeStepSize. destruct (Rlt_dec 0 (0 + h)); [|lra]. cbn [obind]. eauto.
Qed.
Example C151_theta_ex : forall m h, 0 < h -> exists s', stream_times (theta_step solve1 (1 / 2) 1) (fun _ => false) decay nothing m (mkSedg (fun _ => 1) (fun _ => 0) (fun _ => 0) h 0) = Ok s' /\
  wnorm 1 (fun _ => 1) (fun i => sg_f s' i - exp (- (INR m * h))) <= 2 * (INR m * h) * h * ((1 / 2 - 1 / 2) * 1 + (1 / 6 + 1 / 2 / 2) * h * 1) * sqrt (sumf 1 (fun _ => 1)).
Proof.
  intros m h Hh. destruct (decay_runs (1 / 2) m h Hh ltac:(lra)) as [s' E]. exists s'. split; [exact E|].
  assert (B : forall t, 0 <= t -> exp (- t) <= 1). { intros t [P|<-]; [|rewrite Ropp_0, exp_0; lra]. left. rewrite <- exp_0. apply exp_increasing. lra. }
  assert (X := C151_theta_converges solve1 (1 / 2) 1 decay nothing (fun _ => 1) decay_solution 1 1 (fun _ => false) m (mkSedg (fun _ => 1) (fun _ => 0) (fun _ => 0) h 0) s' solve1_exact ltac:(intros; lra) decay_dissipative ltac:(lra) decay_solves).
  cbn zeta in X. eapply Rle_trans; [|apply X; auto; try lra].
  - right. cbn [sg_dt]. unfold wnorm. f_equal. apply sumf_ext. intros i _. unfold decay_solution. cbn [pow]. ring.
  - intros i _. unfold decay_solution. cbn. rewrite Ropp_0, exp_0. ring.
  - intros t i Ht _. unfold decay_solution. cbn [pow]. replace (-1 * (-1 * 1) * exp (- t)) with (exp (- t)) by ring. rewrite Rabs_pos_eq by (left; apply exp_pos). apply B, Ht.
  - intros t i Ht _. unfold decay_solution. cbn [pow]. replace (-1 * (-1 * (-1 * 1)) * exp (- t)) with (- exp (- t)) by ring. rewrite Rabs_Ropp, Rabs_pos_eq by (left; apply exp_pos). apply B, Ht.
Qed.

(** The bound 1/2 is sharp: with any smaller theta every step, however short, amplifies a rotation. *)
Definition rotation : nat -> nat -> R := fun i j => match i, j with 0%nat, 1%nat => -1 | 1%nat, 0%nat => 1 | _, _ => 0 end.
Example rotation_dissipative : dissipative 2 rotation (fun _ => 1).
Proof. intros x. unfold wdot, rotation. cbn. right. ring. Qed.
Theorem C151_theta_below : forall solve theta h f r, solves 2 0 solve -> theta < 1 / 2 -> 0 < h -> (f 0%nat <> 0 \/ f 1%nat <> 0) ->
  theta_step solve theta 2 h f rotation nothing 0 h = Ok r ->
  wdot 2 (fun _ => 1) f f < wdot 2 (fun _ => 1) (sp_f r) (sp_f r).
Proof.
  intros solve theta h f r HS Ht Hh Hf R.
  assert (E := C151_theta_energy solve theta 2 rotation nothing (fun _ => 1) h f r (fun _ => 0) HS ltac:(intros i _; unfold rhs, nothing; rewrite sumf_zero by (intros; ring); ring) R).
  cbn zeta in E. unfold wdot in *. cbn [sumf rotation] in *.
  assert (F0 := theta_form solve theta 2 rotation nothing HS h f r R 0%nat ltac:(lia)).
  assert (F1 := theta_form solve theta 2 rotation nothing HS h f r R 1%nat ltac:(lia)).
  unfold nothing in F0, F1. cbn [sumf rotation] in F0, F1.
  set (a := sp_f r 0%nat) in *. set (c := sp_f r 1%nat) in *. set (p := f 0%nat) in *. set (q := f 1%nat) in *.
  assert (P : 0 < (a - p) * (a - p) + (c - q) * (c - q)).
  { destruct (Req_dec a p) as [A0|A0]; [destruct (Req_dec c q) as [C0|C0]|].
    - exfalso. rewrite A0, C0 in F0, F1. assert (h * q = 0) by lra. assert (h * p = 0) by lra.
      destruct Hf as [Z|Z]; apply Z; [apply (Rmult_eq_reg_l h)|apply (Rmult_eq_reg_l h)]; lra.
    - assert (0 < (c - q) * (c - q)) by (apply Rsqr_pos_lt; lra). assert (0 <= (a - p) * (a - p)) by apply Rle_0_sqr. lra.
    - assert (0 < (a - p) * (a - p)) by (apply Rsqr_pos_lt; lra). assert (0 <= (c - q) * (c - q)) by apply Rle_0_sqr. lra. }
  assert (0 < (1 - 2 * theta) * ((a - p) * (a - p) + (c - q) * (c - q))) by (apply Rmult_lt_0_compat; lra).
  lra.
Qed.
Print Assumptions C151_theta_below.
