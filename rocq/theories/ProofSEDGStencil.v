(** Discontinuous Galerkin operator for the shipped stencils. *)
From Verif Require Import Prelude BigSum ModelStencils ProofStencils SpecStencils ProofWick ProofCollideNode ModelSemiLagrangian ModelSEDG SpecSEDG ProofSEDG ProofSEDGRate ProofSEDGSums ProofSEDGMain.
Local Open Scope R_scope.

Lemma opp_zero t s : st_opp (stencil_of t s) 0 = Some 0%nat.
Proof. destruct t; reflexivity. Qed.
Lemma many_directions t s : (1 < st_Q (stencil_of t s))%nat.
Proof. destruct t; cbn [stencil_of]; unfold st_Q; cbv -[Nat.lt lt]; lia. Qed.
Lemma moving_opposites t s a : (1 <= a < st_Q (stencil_of t s))%nat -> exists b, st_opp (stencil_of t s) a = Some b /\ (1 <= b < st_Q (stencil_of t s))%nat /\ st_opp (stencil_of t s) b = Some a /\
  st_w (stencil_of t s) b = st_w (stencil_of t s) a /\ forall k, (k < st_D (stencil_of t s))%nat -> st_e (stencil_of t s) b k = - st_e (stencil_of t s) a k.
Proof.
  intros [H1 H2]. destruct (opp_ok_all t s a H2) as (b & E1 & Hb & E2 & Hw & He). exists b. split; [exact E1|]. split; [|auto].
  split; [|exact Hb]. destruct b; [|lia]. rewrite opp_zero in E2. assert (a = 0)%nat by congruence. lia.
Qed.
Lemma rest_direction t s k : (k < st_D (stencil_of t s))%nat -> st_e (stencil_of t s) 0 k = 0.
Proof.
  intros Hk. assert (H0 : (0 < st_Q (stencil_of t s))%nat) by (assert (M := many_directions t s); lia).
  destruct (opp_ok_all t s 0%nat H0) as (b & E1 & _ & _ & _ & He). rewrite opp_zero in E1. assert (b = 0)%nat by congruence. subst b. specialize (He k Hk). lra.
Qed.
Lemma opposite_in t s a : (1 <= a < st_Q (stencil_of t s))%nat -> (1 <= opposite (stencil_of t s) a < st_Q (stencil_of t s))%nat.
Proof. intros H. destruct (moving_opposites t s a H) as (b & E & Hb & _). unfold opposite. rewrite E. exact Hb. Qed.

Section Stencil.
  Context {cell : Type} (S : space cell) (qn : nat -> nat) (fd : nat -> nat -> nat) (t : StencilType) (scaling : R)
          (velocity : nat -> option (point -> point)) (cells : list cell).
  Notation st := (stencil_of t scaling).
  Hypothesis Hd : sp_dim S = st_D st.
  Hypothesis Hs : scaling <> 0.
  Hypothesis G : good_mesh S qn fd cells.
  Hypothesis Hsup : supported S velocity cells.

  Let Hopp : forall a, (1 <= a < st_Q st)%nat -> exists b, st_opp st a = Some b /\ (1 <= b < st_Q st)%nat /\ st_opp st b = Some a /\
    st_w st b = st_w st a /\ forall k, (k < sp_dim S)%nat -> st_e st b k = - st_e st a k.
  Proof. intros a Ha. rewrite Hd. apply moving_opposites. exact Ha. Qed.
  Let Hcs : st_cs2 st <> 0.
  Proof. assert (P := cs2_pos t scaling Hs). lra. Qed.

  Theorem assembles central s0 : exists s, reassemble S st central velocity cells s0 = Ok s.
  Proof.
    destruct (assembled S qn fd st central velocity cells G Hsup) as (x & E & _).
    - intros a Ha. destruct (Hopp a Ha) as (b & E1 & Hb & _). exists b. auto.
    - exact Hcs.
    - apply many_directions.
    - eexists. apply E.
  Qed.

  (** Every call adds the same once more. *)
  Theorem repeated central s0 s1 s : reassemble S st central velocity cells empty_system = Ok s1 -> reassemble S st central velocity cells s0 = Ok s ->
    forall F a i, rate s F a i = rate s0 F a i + rate s1 F a i.
  Proof.
    intros E1 E2 F a i. destruct (assembled S qn fd st central velocity cells G Hsup) as (x & E & _).
    - intros b Hb. destruct (Hopp b Hb) as (b' & Eb & Hb' & _). exists b'. auto.
    - exact Hcs.
    - apply many_directions.
    - rewrite E in E1, E2. assert (s1 = (fst (empty_system) ++ fst x, snd (empty_system) ++ snd x)) by congruence. assert (s = (fst s0 ++ fst x, snd s0 ++ snd x)) by congruence. subst s s1.
      unfold rate, empty_system. cbn [fst snd app]. rewrite apply_row_app, vector_app. ring.
  Qed.

  Variable s : system.
  Hypothesis Es : reassemble S st false velocity cells empty_system = Ok s.
  Theorem periodic_mass F a : no_walls S cells -> (1 <= a < st_Q st)%nat -> integral S qn cells (rate s F) a = 0.
  Proof. intros. apply (mass_periodic S qn fd st velocity cells G Hsup Hopp Hcs (many_directions t scaling) s Es); assumption. Qed.
  Theorem periodic_energy F a : no_walls S cells -> (1 <= a < st_Q st)%nat -> inner S qn cells (F a) (rate s F a) = - (1 / 4) * jumps S fd st velocity cells F a.
  Proof. intros. apply (energy_periodic S qn fd st velocity cells G Hsup Hopp Hcs (many_directions t scaling) s Es); assumption. Qed.
  Theorem wall_mass F : closed_form t = true -> over_directions st (integral S qn cells (rate s F)) = - wall_flux S velocity cells.
  Proof.
    intros Hcf. apply (mass_walls S qn fd st velocity cells G Hsup Hopp Hcs (many_directions t scaling) s Es).
    - rewrite Hd. intros i j Hi Hj. apply (moments_exact5 t scaling Hcf i j i i i); assumption.
    - rewrite Hd. intros k Hk. apply rest_direction. exact Hk.
  Qed.
  Theorem wall_energy (omega : nat -> R) F : resting_walls S velocity cells -> (forall a, (1 <= a < st_Q st)%nat -> omega (opposite st a) = omega a) ->
    over_directions st (fun a => omega a * inner S qn cells (F a) (rate s F a)) = - (1 / 4) * over_directions st (fun a => omega a * jumps S fd st velocity cells F a).
  Proof.
    intros Rw Ho. apply (energy_pairs S qn fd st velocity cells G Hsup Hopp Hcs (many_directions t scaling) s Es omega F (symmetric_ok S st cells omega Ho) Rw).
  Qed.
  Lemma jumps_nonneg F a : (forall c f q, In c cells -> (f < faces_per_cell S)%nat -> (q < n_face_points S)%nat -> 0 <= face_JxW S c f q) -> 0 <= jumps S fd st velocity cells F a.
  Proof.
    intros HJ. unfold jumps. rewrite <- (total_zero cells (fun _ => 0)) by reflexivity. apply total_le. intros c Hc. apply sumf_nonneg. intros f Hf. apply sumf_nonneg. intros q Hq.
    apply Rmult_le_pos; [apply Rmult_le_pos; [apply HJ; assumption|apply Rabs_pos]|]. apply pow2_ge_0.
  Qed.
  Theorem wall_decay (omega : nat -> R) F : resting_walls S velocity cells -> (forall a, (1 <= a < st_Q st)%nat -> omega (opposite st a) = omega a /\ 0 <= omega a) ->
    (forall c f q, In c cells -> (f < faces_per_cell S)%nat -> (q < n_face_points S)%nat -> 0 <= face_JxW S c f q) ->
    over_directions st (fun a => omega a * inner S qn cells (F a) (rate s F a)) <= 0.
  Proof.
    intros Rw Ho HJ. rewrite wall_energy; [|exact Rw|intros a Ha; apply Ho; exact Ha].
    assert (N : 0 <= over_directions st (fun a => omega a * jumps S fd st velocity cells F a)).
    { unfold over_directions. apply sumf_nonneg. intros b Hb. apply Rmult_le_pos; [apply Ho; lia|]. apply jumps_nonneg. exact HJ. }
    lra.
  Qed.
  Theorem derivative F c i a : In c cells -> (i < dofs_per_cell S)%nat -> (1 <= a < st_Q st)%nat ->
    (forall f q, (f < faces_per_cell S)%nat -> (q < n_face_points S)%nat -> outward S st a c f q < 0 -> fd f q = i -> behind S fd st velocity F a c f q = F a (dof_index S c i)) ->
    rate s F a (dof_index S c i) = - sumf (sp_dim S) (fun k => st_e st a k * slope S qn c (fun j => F a (dof_index S c j)) i k).
  Proof. apply (no_jump S qn fd st velocity cells G Hsup Hopp Hcs (many_directions t scaling) s Es). Qed.
  Theorem continuous_derivative F c i a : no_walls S cells -> (forall b, continuous S fd cells (F b)) -> In c cells -> (i < dofs_per_cell S)%nat -> (1 <= a < st_Q st)%nat ->
    rate s F a (dof_index S c i) = - sumf (sp_dim S) (fun k => st_e st a k * slope S qn c (fun j => F a (dof_index S c j)) i k).
  Proof.
    intros Nw Ct Hc Hi Ha. apply derivative; auto. intros f q Hf Hq _ <-. destruct (Nw c f Hc Hf) as (c' & f' & E). unfold behind. rewrite E. symmetry. apply (Ct a c f c' f' q); assumption.
  Qed.
  Lemma slope_constant c i k z : In c cells -> (i < dofs_per_cell S)%nat -> (k < sp_dim S)%nat -> slope S qn c (fun _ => z) i k = 0.
  Proof.
    intros Hc Hi Hk. replace 0 with (z * slope S qn c (fun _ => 1) i k) by (rewrite (gm_flat _ _ _ _ G c Hc i k Hi Hk); ring).
    unfold slope. rewrite <- sumf_scal. apply sumf_ext. intros j Hj. ring.
  Qed.
  (** Uniform populations that suit the walls stay. *)
  Theorem uniform_steady (E : nat -> R) : (forall c f b u q a, In c cells -> (f < faces_per_cell S)%nat -> (q < n_face_points S)%nat -> (1 <= a < st_Q st)%nat -> at_face S c f = Outside b -> velocity b = Some u ->
      E a - E (opposite st a) = wall_shift S st (u (face_point S c f q)) a) ->
    forall c i a, In c cells -> (i < dofs_per_cell S)%nat -> (1 <= a < st_Q st)%nat -> rate s (fun b _ => E b) a (dof_index S c i) = 0.
  Proof.
    intros H c i a Hc Hi Ha. rewrite (derivative (fun b _ => E b) c i a Hc Hi Ha).
    - rewrite sumf_zero; [ring|]. intros k Hk. rewrite slope_constant by assumption. ring.
    - intros f q Hf Hq _ _. unfold behind. destruct (at_face S c f) as [c' f'|b] eqn:Ef; [reflexivity|]. destruct (velocity b) as [u|] eqn:Eu; [|elim (Hsup c f b Hc Hf Ef Eu)].
      specialize (H c f b u q a Hc Hf Hq Ha Ef Eu). lra.
  Qed.
End Stencil.

(** A wall of another kind. *)
Lemma faces_need {cell} (S : space cell) st central velocity qmap fmap c f b a : at_face S c f = Outside b -> velocity b = None -> forall fs x, In f fs -> face_entries S st central velocity qmap fmap c a fs <> Ok x.
Proof.
  intros E Ev. induction fs as [|g r IH]; intros x Hi H; [destruct Hi|]. cbn [face_entries] in H. destruct Hi as [->|Hi].
  - rewrite E, Ev in H. discriminate.
  - destruct (match at_face S c g with Beyond c' f' => _ | Outside b0 => _ end) as [y| |]; cbn [obind] in H; try discriminate.
    destruct (face_entries S st central velocity qmap fmap c a r) as [z| |] eqn:Ez; try discriminate. apply (IH z Hi). reflexivity.
Qed.
Lemma unsupported {cell} (S : space cell) t scaling central velocity cells c f b : In c cells -> (f < faces_per_cell S)%nat -> at_face S c f = Outside b -> velocity b = None ->
  forall s s', reassemble S (stencil_of t scaling) central velocity cells s <> Ok s'.
Proof.
  intros Hc Hf E Ev s s' H. unfold reassemble in H. destruct (maps S) as [m| |]; cbn [obind] in H; try discriminate.
  set (fm := fun f => nth f (snd m) []) in H.
  assert (X : forall cs x, In c cs -> assemble_cells S (stencil_of t scaling) central velocity (fst m) fm cs <> Ok x).
  { induction cs as [|d r IH]; intros x Hi Hx; [destruct Hi|]. cbn [assemble_cells] in Hx. destruct Hi as [->|Hi].
    - assert (Q := many_directions t scaling). replace (st_Q (stencil_of t scaling) - 1)%nat with (Datatypes.S (st_Q (stencil_of t scaling) - 2)) in Hx by lia.
      cbn [List.seq cell_entries] in Hx. destruct (face_entries S (stencil_of t scaling) central velocity (fst m) fm c 1 (List.seq 0 (faces_per_cell S))) as [y| |] eqn:Ey; cbn [obind] in Hx; try discriminate.
      apply (faces_need S (stencil_of t scaling) central velocity (fst m) fm c f b 1 E Ev _ y) in Ey; [exact Ey|]. apply in_seq. lia.
    - destruct (cell_entries S (stencil_of t scaling) central velocity (fst m) fm d _) as [y| |]; cbn [obind] in Hx; try discriminate.
      destruct (assemble_cells S (stencil_of t scaling) central velocity (fst m) fm r) as [z| |] eqn:Ez; try discriminate. apply (IH z Hi). reflexivity. }
  destruct (assemble_cells S (stencil_of t scaling) central velocity (fst m) fm cells) as [y| |] eqn:Ey; cbn [obind] in H; try discriminate. apply (X cells y Hc Ey).
Qed.
