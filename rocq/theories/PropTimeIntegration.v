(** C34-C37, C45, C47: time integrators. *)
From Verif Require Import Prelude BigSum ModelTimeIntegration SpecTimeIntegration ProofTimeIntegration
  ProofTimeIntegration2 ProofTimeIntegration3 ProofTimeIntegration4.
Local Open Scope R_scope.

(** A system with two compartments exchanging mass. *)
Definition exchange : nat -> nat -> R := fun i j => if Nat.eqb i j then -1 else 1.
Definition nothing : nat -> R := fun _ => 0.

(** ** C34 *)

(** The step runs exactly for the time step arguments that the documentation allows: zero
    (use the stored step), the stored step itself, or any positive number. *)
Theorem C34_runs : forall n stored f A b t dt,
  (dt = 0 \/ dt = stored \/ 0 < dt) <-> exists r, rk5_step n stored f A b t dt = Ok r.
Proof. exact rk5_runs. Qed.
Print Assumptions C34_runs.

Theorem C34_time : forall n stored f A b t dt r,
  rk5_step n stored f A b t dt = Ok r -> taken stored dt (sp_dt r) /\ sp_t r = t + sp_dt r.
Proof. intros n stored f A b t dt r H. apply rk5_inv in H. tauto. Qed.
Print Assumptions C34_time.

Theorem C34_steady : forall n stored f A b t dt r,
  steady n A b f -> rk5_step n stored f A b t dt = Ok r -> forall i, (i < n)%nat -> sp_f r i = f i.
Proof. exact rk5_steady. Qed.
Print Assumptions C34_steady.

Theorem C34_conserved : forall n w stored f A b t dt r,
  conserved n A b w -> rk5_step n stored f A b t dt = Ok r ->
  sumf n (fun i => w i * sp_f r i) = sumf n (fun i => w i * f i).
Proof. exact rk5_conserved. Qed.
Print Assumptions C34_conserved.

Example exchange_steady : steady 2 exchange nothing (fun _ => 3).
Proof. intros i Hi. destruct i as [|[|i]]; [| |lia]; unfold rhs, exchange, nothing; cbn; ring. Qed.
Example exchange_conserved : conserved 2 exchange nothing (fun _ => 1).
Proof. intros x. unfold rhs, exchange, nothing. cbn. ring. Qed.
(** Any number of streaming steps of a simulation with the discontinuous Galerkin scheme. *)
Theorem C34_stream : forall n A b w former m s,
  0 < sg_dt s -> conserved n A b w ->
  exists s', stream_times (rk5_step n) former A b m s = Ok s' /\
    sg_dt s' = sg_dt s /\ sg_time s' = sg_time s + INR m * sg_dt s /\
    sumf n (fun i => w i * sg_f s' i) = sumf n (fun i => w i * sg_f s i) /\
    sumf n (fun i => w i * sg_formerF s' i) = sumf n (fun i => w i * sg_formerF s i) /\
    sumf n (fun i => w i * sg_formerFEq s' i) = sumf n (fun i => w i * sg_formerFEq s i).
Proof.
  intros n A b w former m s P C. destruct (rk5_stream_times_runs n A b former m s P) as [s' E].
  exists s'. split; [exact E|]. apply (stream_times_inv n A b w) in E; [exact E|].
  apply rk5_step_ok. exact C.
Qed.
Print Assumptions C34_stream.

(** ** C35 *)

(** One step is a polynomial of degree five in the step size whose coefficients up to degree
    four are those of the Taylor polynomial. *)
Theorem C35_taylor : exists c : nat -> R,
  c 0%nat = 1 /\ (forall k, (k <= 4)%nat -> Rabs (c k - / INR (fact k)) <= / 100000000000000000000) /\
  Rabs (c 5%nat - 1 / 200) <= / 1000000000000 /\
  forall n stored f A b t dt r, rk5_step n stored f A b t dt = Ok r -> forall i, (i < n)%nat ->
    sp_f r i = sumf 6 (fun k => c k * sp_dt r ^ k * derivative n A b f k i).
Proof. exact rk5_taylor. Qed.
Print Assumptions C35_taylor.

(** The numbers [derivative] are the derivatives of every solution. *)
Theorem C35_derivative : forall n A b D f, solution n A b D ->
  (forall i, (i < n)%nat -> D 0%nat 0 i = f i) ->
  forall k i, (i < n)%nat -> D k 0 i = derivative n A b f k i.
Proof. exact solution_derivative. Qed.
Print Assumptions C35_derivative.

(** Error of one step against a solution of the differential equation. *)
Theorem C35_local_error : forall n stored f A b t dt r D M i,
  rk5_step n stored f A b t dt = Ok r -> solution n A b D ->
  (forall i, (i < n)%nat -> D 0%nat 0 i = f i) -> (i < n)%nat -> 0 <= sp_dt r ->
  (forall s, 0 <= s <= sp_dt r -> Rabs (D 5%nat s i) <= M) ->
  Rabs (sp_f r i - D 0%nat (sp_dt r) i)
  <= M * sp_dt r ^ 5 / 70 + / 100000000000000000000 * sumf 4 (fun k => sp_dt r ^ S k * Rabs (D (S k) 0 i)).
Proof. exact rk5_local_error. Qed.
Print Assumptions C35_local_error.

Example exp_solution : solution 1 (fun _ _ => 1) nothing (fun _ t _ => exp t).
Proof.
  split.
  - intros k t i _. apply derivable_pt_lim_exp.
  - intros t i _. unfold rhs, nothing. cbn. ring.
Qed.
Example exp_bounded : forall h, 0 <= h -> forall s, 0 <= s <= h -> Rabs (exp s) <= exp h.
Proof.
  intros h Hh s Hs. rewrite Rabs_pos_eq by (left; apply exp_pos).
  destruct (Req_dec s h) as [->|N]; [lra|]. left. apply exp_increasing. lra.
Qed.

(** ** C36 *)

(** Exact solver: the theta scheme holds in every component. *)
Theorem C36_scheme : forall solve theta n stored f A b t dt r,
  solves n 0 solve -> theta_step solve theta n stored f A b t dt = Ok r ->
  forall i, (i < n)%nat ->
    sp_f r i - f i = sp_dt r * ((1 - theta) * sumf n (fun j => A i j * f j)
                                + theta * sumf n (fun j => A i j * sp_f r j) + b i).
Proof.
  intros solve theta n stored f A b t dt r S H i Hi.
  assert (E := theta_exact solve theta n stored f A b t dt r S H i Hi). unfold theta_defect in E. lra.
Qed.
Print Assumptions C36_scheme.

(** A solver with a relative tolerance, such as the 10^-6 of the code. *)
Theorem C36_tolerance : forall solve theta n tol stored f A b t dt r,
  solves n tol solve -> theta_step solve theta n stored f A b t dt = Ok r ->
  norm2 n (theta_defect n A b theta (sp_dt r) f (sp_f r)) <= tol * norm2 n (theta_known n A b theta (sp_dt r) f).
Proof. exact theta_tolerance. Qed.
Print Assumptions C36_tolerance.

Theorem C36_time : forall solve theta n stored f A b t dt r,
  theta_step solve theta n stored f A b t dt = Ok r -> taken stored dt (sp_dt r) /\ sp_t r = t + sp_dt r.
Proof. intros solve theta n stored f A b t dt r H. apply theta_inv in H. tauto. Qed.
Print Assumptions C36_time.

Theorem C36_steady : forall solve theta n stored f A b t dt r,
  keeps_solutions n solve -> steady n A b f -> theta_step solve theta n stored f A b t dt = Ok r ->
  forall i, (i < n)%nat -> sp_f r i = f i.
Proof. exact theta_steady. Qed.
Print Assumptions C36_steady.

Theorem C36_conserved : forall solve theta n w stored f A b t dt r,
  solves n 0 solve -> conserved n A b w -> theta_step solve theta n stored f A b t dt = Ok r ->
  sumf n (fun i => w i * sp_f r i) = sumf n (fun i => w i * f i).
Proof. exact theta_conserved. Qed.
Print Assumptions C36_conserved.

Theorem C36_conserved_tolerance : forall solve theta n tol w stored f A b t dt r,
  solves n tol solve -> conserved n A b w -> theta_step solve theta n stored f A b t dt = Ok r ->
  Rabs (sumf n (fun i => w i * sp_f r i) - sumf n (fun i => w i * f i))
  <= norm2 n w * (tol * norm2 n (theta_known n A b theta (sp_dt r) f)).
Proof. exact theta_conserved_tol. Qed.
Print Assumptions C36_conserved_tolerance.

(** A solver for one unknown. *)
Definition solve1 (M : nat -> nat -> R) (x0 r : nat -> R) : outcome (nat -> R) :=
  if Req_EM_T (M 0%nat 0%nat) 0 then Throw else Ok (fun _ => r 0%nat / M 0%nat 0%nat).
Example solve1_exact : solves 1 0 solve1.
Proof.
  intros M x0 r x. unfold solve1. destruct (Req_EM_T _ 0) as [E|E]; [discriminate|]. injection 1 as <-.
  rewrite Rmult_0_l. right. unfold norm2. rewrite <- sqrt_0. f_equal. cbn. field. exact E.
Qed.
Example solve1_keeps : keeps_solutions 1 solve1.
Proof.
  intros M x0 r x. unfold solve1. destruct (Req_EM_T _ 0) as [E|E]; [discriminate|]. injection 1 as <-.
  intros K i Hi. destruct i; [|lia]. rewrite <- (K 0%nat Hi). cbn. field. exact E.
Qed.
(** Backward Euler (theta = 1) for f' = -f with step 1 halves the value. *)
Example theta_halves : exists r,
  theta_step solve1 1 1 1 (fun _ => 6) (fun _ _ => -1) nothing 0 1 = Ok r /\ sp_f r 0%nat = 3.
Proof.
  unfold theta_step, resolve_dt. destruct (Req_EM_T 1 0); [lra|]. destruct (Req_EM_T 1 1); [|lra].
  cbn [obind]. unfold solve1 at 1. destruct (Req_EM_T _ 0) as [E|E].
  - exfalso. unfold delta in E. cbn in E. lra.
  - cbn [obind]. eexists. split; [reflexivity|]. cbn [sp_f]. unfold vadd, vscale, vmult, delta, nothing. cbn. field.
Qed.

(** ** C37 *)

(** At rest the integrator divides zero by zero: no component of the result is a number. *)
Theorem C37_not_a_number : forall pade inverse n stored f A b t dt r,
  steady n A b f -> exp_step pade inverse n stored (fun i => Some (f i)) A b t dt = Ok r ->
  forall i, (i < n)%nat -> sp_f r i = None.
Proof. exact exp_steady. Qed.
Print Assumptions C37_not_a_number.

Theorem C37_steady_refuted : exists n stored f A b, 0 < stored /\ steady n A b f /\
  forall pade inverse, exists r,
    exp_step pade inverse n stored (fun i => Some (f i)) A b 0 0 = Ok r /\
    ~ (forall i, (i < n)%nat -> sp_f r i = Some (f i)).
Proof.
  exists 2%nat, 1, (fun _ => 3), exchange, nothing. split; [lra|]. split; [exact exchange_steady|].
  intros pade inverse.
  assert (exists r, exp_step pade inverse 2 1 (fun _ => Some 3) exchange nothing 0 0 = Ok r) as [r E].
  { unfold exp_step, resolve_dt. destruct (Req_EM_T 0 0); [|lra]. cbn [obind]. eauto. }
  exists r. split; [exact E|]. intros H.
  assert (Q := exp_steady pade inverse 2 1 (fun _ => 3) exchange nothing 0 0 r exchange_steady E 0%nat ltac:(lia)).
  rewrite H in Q by lia. discriminate.
Qed.
Print Assumptions C37_steady_refuted.

(** Whenever the result is made of numbers, linear invariants are preserved. *)
Theorem C37_conserved : forall n A b w, conserved n A b w -> forall pade inverse stored f t dt r g,
  exp_step pade inverse n stored (fun i => Some (f i)) A b t dt = Ok r ->
  (forall i, (i < n)%nat -> sp_f r i = Some (g i)) ->
  sumf n (fun i => w i * g i) = sumf n (fun i => w i * f i).
Proof. exact exp_conserved. Qed.
Print Assumptions C37_conserved.

(** ** C45 *)

(** Streaming with a deal.II integrator never ends regularly. *)
Theorem C45_integrator_refuted : exists deal i, build_integrator OTHER deal = Some (IntDeal i) /\
  forall solver n former A b s, ~ exists s', sedg_stream (deal_step i solver n) former A b s = Ok s'.
Proof. exists 0%nat, 0%nat. split; [reflexivity|]. intros. intros [s' E]. discriminate. Qed.
Print Assumptions C45_integrator_refuted.

(** The limiter leaves values outside the range of their sources. *)
Theorem C45_limiter_refuted : exists n A target source i,
  (forall k, (k < n)%nat -> target k = sumf n (fun j => A k j * source j)) /\ (i < n)%nat /\
  ~ within_sources n A source i (vmult_limiter n A target source i).
Proof.
  exists 2%nat, (fun _ j => if Nat.eqb j 0 then 2 else -1), (fun _ => 2), (fun j => if Nat.eqb j 0 then 1 else 0), 0%nat.
  split; [intros k _; cbn; ring|]. split; [lia|].
  intros [_ (j & Hj & _ & H)]. unfold vmult_limiter in H. destruct j as [|[|j]]; [| |lia]; cbn in H; lra.
Qed.
Print Assumptions C45_limiter_refuted.

(** ** C47 *)

(** The class comment says fifth order; the h^5 coefficient is off. *)
Theorem C47_fifth_order_refuted : exists n A b f, forall h, 1 / 10 <= h <= 1 -> exists r,
  rk5_step n h f A b 0 0 = Ok r /\
  h ^ 5 / 400 <= Rabs (sp_f r 0%nat - sumf 6 (fun k => / INR (fact k) * h ^ k * derivative n A b f k 0%nat)).
Proof. exists 1%nat, grow, zero_vec, one_vec. exact not_fifth_order. Qed.
Print Assumptions C47_fifth_order_refuted.
