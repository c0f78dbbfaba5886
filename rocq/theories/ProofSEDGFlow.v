(** Discontinuous Galerkin operator: uniform flow between walls that move along. *)
From Verif Require Import Prelude BigSum ModelStencils ProofStencils SpecStencils ModelSemiLagrangian ModelSEDG SpecSEDG ProofCollideNode ProofSEDG ProofSEDGRate ProofSEDGSums ProofSEDGMain ProofSEDGStencil.
Local Open Scope R_scope.

Theorem carried_steady {cell} (S : space cell) qn fd t scaling velocity cells s u : scaling <> 0 -> sp_dim S = st_D (stencil_of t scaling) -> good_mesh S qn fd cells ->
  supported S velocity cells -> (forall c f b v q k, In c cells -> (f < faces_per_cell S)%nat -> (q < n_face_points S)%nat -> (k < sp_dim S)%nat -> at_face S c f = Outside b -> velocity b = Some v ->
    v (face_point S c f q) k = u k) ->
  reassemble S (stencil_of t scaling) false velocity cells empty_system = Ok s ->
  forall c i a, In c cells -> (i < dofs_per_cell S)%nat -> (1 <= a < st_Q (stencil_of t scaling))%nat ->
  rate s (fun b _ => equilibrium1 (stencil_of t scaling) u b) a (dof_index S c i) = 0.
Proof.
  intros Hs Hd G Hsup Hu Es. apply (uniform_steady S qn fd t scaling velocity cells Hd Hs G Hsup s Es).
  intros c f b v q a Hc Hf Hq Ha Ef Ev. assert (P := cs2_pos t scaling Hs).
  destruct (moving_opposites t scaling a Ha) as (b' & E1 & _ & _ & Hw & He). unfold opposite. rewrite E1. unfold equilibrium1, wall_shift. rewrite Hw, Hd.
  assert (A : sumf (st_D (stencil_of t scaling)) (fun k => u k * st_e (stencil_of t scaling) b' k) = - sumf (st_D (stencil_of t scaling)) (fun k => u k * st_e (stencil_of t scaling) a k)).
  { rewrite <- sumf_opp. apply sumf_ext. intros k Hk. rewrite He by exact Hk. ring. }
  assert (B : sumf (st_D (stencil_of t scaling)) (fun k => v (face_point S c f q) k * st_e (stencil_of t scaling) a k) = sumf (st_D (stencil_of t scaling)) (fun k => u k * st_e (stencil_of t scaling) a k)).
  { apply sumf_ext. intros k Hk. rewrite (Hu c f b v q k) by (rewrite ?Hd; assumption). reflexivity. }
  rewrite A, B. field. lra.
Qed.
