(** Discontinuous Galerkin operator: witnesses on two cells. *)
From Verif Require Import Prelude BigSum ModelStencils SpecStencils ModelSemiLagrangian ModelSEDG SpecSEDG ProofSEDG ProofSEDGRate ProofSEDGSums ProofSEDGMain ProofCollideNode ProofSEDGStencil ProofSEDGMesh.
Local Open Scope R_scope.

Lemma strip_runs walls central velocity s0 : velocity 0%nat <> None -> velocity 1%nat <> None -> exists s, reassemble (strip walls) S9 central velocity two s0 = Ok s.
Proof. intros H0 H1. apply (assembles (strip walls) (fun i => i) strip_fd Stencil_D2Q9 1 velocity two eq_refl ltac:(lra) (strip_good walls) (strip_supported walls velocity H0 H1)). Qed.
Lemma still_ok k : still k <> None. Proof. discriminate. Qed.

(** Upwind, step: the left nodes of the first cell. *)
Lemma step_example : exists s, reassemble (strip false) S9 false still two empty_system = Ok s /\ rate s step_function 1 0 = -2.
Proof.
  destruct (strip_runs false false still empty_system (still_ok 0) (still_ok 1)) as (s & E). exists s. split; [exact E|].
  rewrite <- step_rate. apply (strip_assembled false false still s (still_ok 0) (still_ok 1) E step_function true 0 1); lia.
Qed.
(** Central: a constant. *)
Lemma central_constant : exists s, reassemble (strip false) S9 true still two empty_system = Ok s /\ rate s (fun _ _ => 1) 1 0 = -2.
Proof.
  destruct (strip_runs false true still empty_system (still_ok 0) (still_ok 1)) as (s & E). exists s. split; [exact E|].
  assert (X := strip_assembled false true still s (still_ok 0) (still_ok 1) E (fun _ _ => 1) true 0 1 ltac:(lia) ltac:(lia)). cbn [strip dof_index] in X. rewrite X. node. cbn [fst snd]. field.
Qed.
(** Central: mass. *)
Definition saw (a j : nat) : R := if Nat.odd j then 1 else 0.
Lemma central_mass : exists s, reassemble (strip false) S9 true still two empty_system = Ok s /\ integral (strip false) (fun i => i) two (rate s saw) 1 = -2.
Proof.
  destruct (strip_runs false true still empty_system (still_ok 0) (still_ok 1)) as (s & E). exists s. split; [exact E|].
  assert (X := strip_assembled false true still s (still_ok 0) (still_ok 1) E saw).
  unfold integral, two. cbn [total]. change (dofs_per_cell (strip false)) with 4%nat. cbn [sumf]. rewrite !X by lia.
  node. unfold saw. cbn [Nat.odd Nat.even negb fst snd]. field.
Qed.
(** A continuous function: the hat. *)
Definition hat (a j : nat) : R := if Nat.ltb j 4 then (if Nat.odd j then 1 else 0) else if Nat.odd j then 0 else 1.
Lemma hat_continuous a : continuous (strip false) strip_fd two (hat a).
Proof.
  intros c f c' f' q _ Hf Hq E. cbn [strip faces_per_cell n_face_points at_face dof_index] in *. unfold hat.
  do 4 (destruct f as [|f]; [do 2 (destruct q as [|q]; [match type of E with Beyond ?x ?y = _ => replace c' with x by congruence; replace f' with y by congruence end; destruct c; reflexivity|]); lia|]). lia.
Qed.
Lemma hat_slope : slope (strip false) (fun i => i) true (fun j => hat 1 (dof_index (strip false) true j)) 0 0 = 1.
Proof. unfold slope. cbn [strip dofs_per_cell sumf shape_grad dof_index]. unfold strip_grad, hat. cbn [Nat.div Nat.divmod Nat.modulo fst snd Nat.sub Nat.eqb sign Nat.ltb Nat.leb Nat.odd Nat.even negb]. ring. Qed.
(** Twice assembled. *)
Lemma twice : exists s s', reassemble (strip false) S9 false still two empty_system = Ok s /\ reassemble (strip false) S9 false still two s = Ok s' /\
  rate s step_function 1 0 = -2 /\ rate s' step_function 1 0 = -4.
Proof.
  destruct step_example as (s & E & V). destruct (strip_runs false false still s (still_ok 0) (still_ok 1)) as (s' & E'). exists s, s'. split; [exact E|]. split; [exact E'|]. split; [exact V|].
  rewrite (repeated (strip false) (fun i => i) strip_fd Stencil_D2Q9 1 still two eq_refl ltac:(lra) (strip_good false) (periodic_supported still) false s s s' E E'), V. lra.
Qed.

(** ** Moving walls *)
Definition sliding (U : R) : nat -> option (point -> point) := fun _ => Some (fun _ k => match k with 0%nat => U | _ => 0 end).
Definition carried (rho U : R) (a : nat) : R := rho * st_w S9 a * (1 + sumf 2 (fun k => st_e S9 a k * match k with 0%nat => U | _ => 0 end) / st_cs2 S9).
Lemma sliding_ok U k : sliding U k <> None. Proof. discriminate. Qed.
Lemma w9_5 : st_w S9 5 = 1 / 36 /\ st_w S9 7 = 1 / 36 /\ opposite S9 5 = 7%nat.
Proof. cbn [stencil_of D2Q9 st_w]. unfold wtbl. cbn [nth StencilData.D2Q9_wt]. unfold Q2R. cbn. repeat split; lra. Qed.
(** Fluid of density [rho] and velocity [U] along walls of velocity [V]. *)
Lemma sliding_rate rho U V s : reassemble (strip true) S9 false (sliding V) two empty_system = Ok s -> rate s (fun a _ => carried rho U a) 5 0 = (V - rho * U) / 3.
Proof.
  intros E. assert (X := strip_assembled true false (sliding V) s (sliding_ok V 0) (sliding_ok V 1) E (fun a _ => carried rho U a) true 0 5 ltac:(lia) ltac:(lia)). cbn [strip dof_index] in X. rewrite X.
  destruct w9_5 as (W5 & W7 & O). node. unfold carried, wall_shift, sliding. rewrite O. cbn [strip sp_dim sumf]. rewrite W5, W7, !e9_value by lia. cbn [e9z nth].
  change (st_cs2 S9) with (1 * 1 / 3). decide_lt. cbn [fst snd]. field.
Qed.
Lemma density_witness : exists s, reassemble (strip true) S9 false (sliding 1) two empty_system = Ok s /\ rate s (fun a _ => carried 1 1 a) 5 0 = 0 /\ rate s (fun a _ => carried 2 1 a) 5 0 = - (1 / 3).
Proof.
  destruct (strip_runs true false (sliding 1) empty_system (sliding_ok 1 0) (sliding_ok 1 1)) as (s & E). exists s. split; [exact E|]. rewrite !(sliding_rate _ _ _ s E). lra.
Qed.
(** Walls that speed up: the velocity at the time of assembly remains. *)
Lemma frozen_witness : exists s s', reassemble (strip true) S9 false (sliding 0) two empty_system = Ok s /\ reassemble (strip true) S9 false (sliding 1) two empty_system = Ok s' /\
  rate s' (fun a _ => carried 1 1 a) 5 0 = 0 /\ rate s (fun a _ => carried 1 1 a) 5 0 = - (1 / 3).
Proof.
  destruct (strip_runs true false (sliding 0) empty_system (sliding_ok 0 0) (sliding_ok 0 1)) as (s & E). destruct (strip_runs true false (sliding 1) empty_system (sliding_ok 1 0) (sliding_ok 1 1)) as (s' & E').
  exists s, s'. split; [exact E|]. split; [exact E'|]. rewrite (sliding_rate _ _ _ s E), (sliding_rate _ _ _ s' E'). lra.
Qed.
(** Blowing through the lower wall. *)
Definition blowing : nat -> option (point -> point) := fun b => match b with 0%nat => Some (fun _ k => match k with 1%nat => 1 | _ => 0 end) | _ => Some (fun _ _ => 0) end.
Lemma blowing_flux : wall_flux (strip true) blowing two = -2.
Proof. unfold wall_flux, two. cbn [total strip faces_per_cell n_face_points sp_dim sumf at_face blowing face_JxW face_normal strip_normal]. field. Qed.
