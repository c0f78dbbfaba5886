(** C157: gradients at boundaries. *)
From Verif Require Import Prelude ModelBoundaryGradient ProofBoundaryGradient.
Local Open Scope R_scope.

(** The steps of a use: reinit, calculateGradients, face_reinit, get_gradient_component. *)
Definition use (b : build) ids n_q cells sol c f shape q k : outcome R :=
  obind (cbg_calculate b ids n_q cells sol (cbg_reinit cbg_new)) (fun s => obind (cbg_face b c f s) (fun s' => cbg_component b shape q k s')).

(** Refuted: the value is the gradient of the solution.  With assertions every use fails; without assertions the value is
    zero for every mesh, choice of boundaries, solution, face, point and component, also where the gradient is one. *)
Theorem C157_gradient_refuted :
  (forall ids n_q cells sol c f shape q k, use Debug ids n_q cells sol c f shape q k = Throw) /\
  (forall ids n_q cells sol c f shape q k, use Release ids n_q cells sol c f shape q k = Ok 0) /\
  exists ids n_q cells (sol : gsolution) c f shape q k,
    nth_error cells 0 = Some c /\ owned c = true /\ (exists id, nth_error (face_ids c) f = Some id /\ In id ids) /\ (q < n_q)%nat /\
    sol 0%nat f q k = 1 /\ use Release ids n_q cells sol c f shape q k <> Ok (sol 0%nat f q k).
Proof.
  assert (Z : forall ids n_q cells sol c f shape q k, use Release ids n_q cells sol c f shape q k = Ok 0).
  { intros. unfold use. destruct (calculate_release ids n_q cells sol (cbg_reinit cbg_new) (conj eq_refl eq_refl)) as (s & E & Zs & F). rewrite E. cbn [obind].
    destruct (face_release c f s F) as (s' & E' & Zs' & F'). rewrite E'. cbn [obind]. unfold cbg_component. rewrite F', (proj2 (Zs' Zs)). apply component_zero. }
  split; [|split; [exact Z|]].
  - intros. unfold use. rewrite calculate_debug by (split; reflexivity). reflexivity.
  - exists [7%nat], 2%nat, [{| owned := true; face_ids := [7%nat; 0%nat]; dofs := [0%nat; 1%nat] |}], (fun _ _ _ _ => 1), {| owned := true; face_ids := [7%nat; 0%nat]; dofs := [0%nat; 1%nat] |},
      0%nat, (fun _ _ => 1), 0%nat, 0%nat.
    split; [reflexivity|]. split; [reflexivity|]. split; [exists 7%nat; split; [reflexivity|left; reflexivity]|]. split; [lia|]. split; [reflexivity|].
    rewrite Z. intros H. injection H as H. lra.
Qed.
Print Assumptions C157_gradient_refuted.
Example C157_gradient_refuted_ex : use Release [1%nat] 3 [] (fun _ _ _ _ => 5) {| owned := true; face_ids := [1%nat]; dofs := [2%nat] |} 0 (fun _ _ => 1) 1 0 = Ok 0.
Proof. apply (proj1 (proj2 C157_gradient_refuted)). Qed.

(** What remains: without assertions the value is right exactly where the gradient vanishes. *)
Theorem C157_gradient_partial : forall ids n_q cells (sol : gsolution) n c f shape q k,
  use Release ids n_q cells sol c f shape q k = Ok (sol n f q k) <-> sol n f q k = 0.
Proof.
  intros. rewrite (proj1 (proj2 C157_gradient_refuted)). split; [intros H; injection H as H; symmetry; exact H|intros ->; reflexivity].
Qed.
Print Assumptions C157_gradient_partial.
Example C157_gradient_partial_ex : use Release [1%nat] 1 [] (fun _ _ _ k => INR k) {| owned := true; face_ids := [1%nat]; dofs := [0%nat] |} 0 (fun _ _ => 1) 0 0 = Ok 0 /\
  use Release [1%nat] 1 [] (fun _ _ _ k => INR k) {| owned := true; face_ids := [1%nat]; dofs := [0%nat] |} 0 (fun _ _ => 1) 0 1 <> Ok (INR 1).
Proof.
  split; [apply (C157_gradient_partial [1%nat] 1 [] (fun _ _ _ k => INR k) 0); reflexivity|].
  intros H. apply (C157_gradient_partial [1%nat] 1 [] (fun _ _ _ k => INR k) 0) in H. cbn in H. lra.
Qed.

(** Refuted: objects can be destroyed at any time.  Without an earlier reinit the destructor follows null pointers. *)
Theorem C157_destroy_refuted : cbg_destroy cbg_new = UB /\ (forall s, cbg_destroy (cbg_reinit s) = Ok tt) /\
  (forall b ids n_q cells sol, cbg_calculate b ids n_q cells sol cbg_new = UB).
Proof. repeat split. Qed.
Print Assumptions C157_destroy_refuted.
Example C157_destroy_refuted_ex : cbg_destroy (cbg_reinit (cbg_reinit cbg_new)) = Ok tt.
Proof. exact (proj1 (proj2 C157_destroy_refuted) (cbg_reinit cbg_new)). Qed.
