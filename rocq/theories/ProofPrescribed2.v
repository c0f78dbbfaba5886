(** Values at a boundary: prescribed values, an example for the flow variables. *)
From Coq Require Import QArith Qreals.
From Verif Require Import Prelude StencilData ModelStencils SpecCollision BigSum ProofDeriv ProofOldCollision ModelPrescribed SpecPrescribed ProofPrescribed.
Local Open Scope R_scope.

Lemma pressure_reports p : let b := boundary_values (pv_of_pressure p) in
  pv_flags b = boundary_p /\ reports (pv_pressure b) p /\ absent (pv_velocity b) /\ absent (pv_temperature b) /\ absent (pv_gradient b).
Proof. cbn. repeat split. eexists. split; reflexivity. Qed.

Lemma BoundaryVelocity_reports dim u : reports_vector (Some (BoundaryVelocity dim u)) dim u.
Proof. eexists. split; [reflexivity|]. split; [reflexivity|]. intros x k Hk. cbn [BoundaryVelocity value]. apply Nat.ltb_lt in Hk. rewrite Hk. reflexivity. Qed.

Lemma velocity_reports dim u : let b := boundary_values (pv_of_velocity dim u) in
  pv_flags b = boundary_u /\ reports_vector (pv_velocity b) dim u /\ absent (pv_pressure b) /\ absent (pv_temperature b) /\ absent (pv_gradient b).
Proof. cbv zeta. repeat split. apply BoundaryVelocity_reports. Qed.

Lemma vector_reports dim u v : pv_of_vector dim u = Ok v -> let b := boundary_values v in
  length u = dim /\ pv_flags b = boundary_u /\ reports_vector (pv_velocity b) dim (fun k => nth k u 0) /\ absent (pv_pressure b) /\ absent (pv_temperature b) /\ absent (pv_gradient b).
Proof.
  unfold pv_of_vector, BoundaryVelocity_vector. destruct (Nat.eqb (length u) dim) eqn:E; [|discriminate]. apply Nat.eqb_eq in E.
  cbn [obind]. intros H. injection H as <-. cbv zeta. repeat split; [exact E|]. apply BoundaryVelocity_reports.
Qed.
Lemma vector_accepts dim u : (exists v, pv_of_vector dim u = Ok v) <-> length u = dim.
Proof.
  unfold pv_of_vector, BoundaryVelocity_vector. destruct (Nat.eqb (length u) dim) eqn:E; cbn [obind].
  - apply Nat.eqb_eq in E. split; [intros _; exact E|intros _; eexists; reflexivity].
  - apply Nat.eqb_neq in E. split; [intros [v H]; discriminate|contradiction].
Qed.

Lemma gradient_reports g : let b := boundary_values (pv_of_gradient g) in
  pv_flags b = boundary_du_dx /\ (exists G, pv_gradient b = Some G /\ forall x i k, G x i k = g i k) /\
  absent (pv_pressure b) /\ absent (pv_velocity b) /\ absent (pv_temperature b).
Proof. cbv zeta. repeat split. eexists. split; reflexivity. Qed.

Lemma function_reports dim f v : (1 < dim)%nat -> pv_function dim f = Ok v -> let b := boundary_values v in
  absent (pv_temperature b) /\ absent (pv_gradient b) /\
  ((n_components f = 1%nat /\ pv_flags b = boundary_p /\ pv_pressure b = Some f /\ absent (pv_velocity b)) \/
   (n_components f = dim /\ pv_flags b = boundary_u /\ pv_velocity b = Some f /\ absent (pv_pressure b))).
Proof.
  intros Hd. unfold pv_function. destruct (Nat.eqb (n_components f) 1) eqn:E1; [apply Nat.eqb_eq in E1|destruct (Nat.eqb (n_components f) dim) eqn:E2; [apply Nat.eqb_eq in E2|discriminate]];
  intros H; injection H as <-; cbv zeta; (split; [reflexivity|split; [reflexivity|]]); [left|right]; repeat split; assumption.
Qed.
Lemma function_accepts dim f : (exists v, pv_function dim f = Ok v) <-> n_components f = 1%nat \/ n_components f = dim.
Proof.
  unfold pv_function. destruct (Nat.eqb (n_components f) 1) eqn:E1.
  - apply Nat.eqb_eq in E1. split; [tauto|]. intros _. eexists; reflexivity.
  - apply Nat.eqb_neq in E1. destruct (Nat.eqb (n_components f) dim) eqn:E2.
    + apply Nat.eqb_eq in E2. split; [tauto|]. intros _. eexists; reflexivity.
    + apply Nat.eqb_neq in E2. split; [intros [v H]; discriminate|tauto].
Qed.

Lemma pUT_reports dim p u T : let b := boundary_values (pv_of_pUT dim p u T) in
  pv_flags b = boundary_pUT /\ reports (pv_pressure b) p /\ reports_vector (pv_velocity b) dim u /\ absent (pv_gradient b) /\ absent (pv_temperature b).
Proof.
  cbv zeta. split; [reflexivity|]. split; [eexists; split; reflexivity|]. split; [apply BoundaryVelocity_reports|]. split; reflexivity.
Qed.
Lemma pUT_temperature dim p u T : reports (pv_temperature (pv_of_pUT dim p u T)) p.
Proof. eexists. split; reflexivity. Qed.

(** ** Linear shape functions between two nodes *)
Definition tent (d : nat) (y : nat -> R) : R := match d with 0%nat => 1 - y 0%nat | _ => y 0%nat end.
Definition tent_phi (_ : nat) : R := 1/2.
Definition tent_grad (d i : nat) : R := match i with 0%nat => match d with 0%nat => -1 | _ => 1 end | _ => 0 end.
Lemma tent_shapes : shapes 2 2 tent (fun _ => 1/2) tent_phi tent_grad (fun _ _ _ => 0).
Proof.
  split.
  - intros d _. destruct d; cbn; unfold tent_phi; lra.
  - exists (fun d i _ => tent_grad d i). split.
    + intros d i Hd Hi. split; [|reflexivity]. intros y. unfold partial, tent, shift.
      destruct d as [|d], i as [|i]; cbn [Nat.eqb tent_grad]; deriv; ring.
    + intros d i k _ _ _. unfold partial. apply dl_const.
Qed.
(** At rest at the first node, moving at the second one. *)
Definition sheared (q d : nat) : R := if Nat.eqb q d then 1 else 0.
Lemma sheared_ok z : exists y, fe_reinit (D2Q9 1) 1 1 2 sheared tent_phi tent_grad (fun _ _ _ => 0) 27 z = Ok y.
Proof.
  apply (fe_succeeds (D2Q9 1) 1 1 2 sheared tent_phi tent_grad (fun _ _ _ => 0) tent (fun _ => 1/2) tent_shapes).
  - cbn. tauto.
  - lra.
  - lra.
  - intros _. assert (R0 : mass (D2Q9 1) (fun q => sheared q 0) = 1) by (unfold mass, sheared; cbn [D2Q9 st_Q sumf Nat.eqb]; ring).
    assert (R1 : mass (D2Q9 1) (fun q => sheared q 1) = 1) by (unfold mass, sheared; cbn [D2Q9 st_Q sumf Nat.eqb]; ring).
    split; [|split].
    + intros d Hd. destruct d as [|[|d]]; [rewrite R0; lra|rewrite R1; lra|lia].
    + unfold fe_field. cbn [sumf]. rewrite R0, R1. cbn [tent]. lra.
    + intros i _. unfold fe_field. cbn [sumf]. rewrite R0, R1. unfold tent. field.
Qed.
