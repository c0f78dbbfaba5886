(** Properties C01-C03: the shipped stencils. *)
From Verif Require Import Prelude ModelStencils SpecStencils BigSum ProofStencils ProofStencilMoments ProofMaxVel ProofWick.
Open Scope R_scope.

(** C01. The opposite of direction [i] is minus direction [i], has the same
    weight, and the opposite of the opposite is [i]. *)
Theorem C01_opposites : forall (t : StencilType) (s : R) (i : nat),
  (i < st_Q (stencil_of t s))%nat ->
  exists j, st_opp (stencil_of t s) i = Some j /\ (j < st_Q (stencil_of t s))%nat /\
            st_opp (stencil_of t s) j = Some i /\
            st_w (stencil_of t s) j = st_w (stencil_of t s) i /\
            forall a, (a < st_D (stencil_of t s))%nat ->
              st_e (stencil_of t s) j a = - st_e (stencil_of t s) i a.
Proof. exact opp_ok_all. Qed.
Print Assumptions C01_opposites.

Example C01_nonvacuous : st_opp (D3Q19 2) 7 = Some 9%nat /\ st_e (D3Q19 2) 7 0 <> 0.
Proof. split; [reflexivity|]. cbn. unfold tbl, tblQ, Rdefinitions.Q2R. cbn. lra. Qed.

(** C02a. Weights of every shipped stencil are positive. *)
Theorem C02_weights_positive : forall (t : StencilType) (s : R) (i : nat),
  (i < st_Q (stencil_of t s))%nat -> 0 < st_w (stencil_of t s) i.
Proof. exact weights_pos. Qed.
Print Assumptions C02_weights_positive.

(** C02b. Every tensor moment up to the order of the stencil agrees with the
    isotropic normal distribution, up to the tolerance of the literals. *)
Theorem C02_moments : forall (t : StencilType) (s : R) (l : list nat),
  Forall (fun a => (a < st_D (stencil_of t s))%nat) l -> (length l <= moment_order t)%nat ->
  Rabs (tmom (stencil_of t s) l - IZR (wick l) * st_cs2 (stencil_of t s) ^ (Nat.div2 (length l)))
    <= moment_tol t * Rabs (st_cs (stencil_of t s)) ^ (length l).
Proof. exact tmom_ok. Qed.
Print Assumptions C02_moments.

(** C02c. For the closed-form stencils the agreement is exact; spelled out up to order five. *)
Theorem C02_moments_exact : forall (t : StencilType) (s : R), closed_form t = true ->
  let st := stencil_of t s in let Q := st_Q st in let w := st_w st in let e := st_e st in
  forall a b c d g, (a < st_D st)%nat -> (b < st_D st)%nat -> (c < st_D st)%nat ->
    (d < st_D st)%nat -> (g < st_D st)%nat ->
  sumf Q w = 1 /\
  sumf Q (fun i => w i * e i a) = 0 /\
  sumf Q (fun i => w i * e i a * e i b) = st_cs2 st * delta a b /\
  sumf Q (fun i => w i * e i a * e i b * e i c) = 0 /\
  sumf Q (fun i => w i * e i a * e i b * e i c * e i d)
    = st_cs2 st * st_cs2 st * (delta a b * delta c d + delta a c * delta b d + delta a d * delta b c) /\
  sumf Q (fun i => w i * e i a * e i b * e i c * e i d * e i g) = 0.
Proof. exact moments_exact5. Qed.
Print Assumptions C02_moments_exact.

(** C02d. All odd moments of every stencil vanish exactly, at every order. *)
Theorem C02_odd_moments_vanish : forall (t : StencilType) (s : R) (l : list nat),
  Forall (fun a => (a < st_D (stencil_of t s))%nat) l -> Nat.odd (length l) = true ->
  tmom (stencil_of t s) l = 0.
Proof. exact tmom_odd. Qed.
Print Assumptions C02_odd_moments_vanish.

(** C02e. The reported speed of sound squares to the reported square. *)
Theorem C02_speed_of_sound : forall (t : StencilType) (s : R),
  st_cs2 (stencil_of t s) = st_cs (stencil_of t s) * st_cs (stencil_of t s) /\
  (0 < s -> 0 < st_cs (stencil_of t s)).
Proof. exact cs_square. Qed.
Print Assumptions C02_speed_of_sound.

Example C02_nonvacuous : closed_form Stencil_D3Q19 = true /\
  tmom (stencil_of Stencil_D3Q19 1) [0; 0; 1; 1]%nat = 1 / 9 /\ wick [0; 0; 0; 0]%nat = 3%Z.
Proof.
  split; [reflexivity|]. split; [|reflexivity].
  rewrite (isotropic_all Stencil_D3Q19 1 eq_refl [0; 0; 1; 1]%nat).
  - cbn. lra.
  - repeat constructor.
  - cbn. lia.
Qed.

(** C03. Full statement (refuted): the reported maximal particle speed bounds
    every direction of every stencil. *)
Theorem C03_max_velocity_bound_refuted :
  exists (t : StencilType) (s : R), 0 < s /\
    exists i, (i < st_Q (stencil_of t s))%nat /\ st_maxvel (stencil_of t s) < dir_norm (stencil_of t s) i.
Proof. exact maxvel_refuted. Qed.
Print Assumptions C03_max_velocity_bound_refuted.

(** C03. Complete characterisation: for which stencils the reported value is the
    longest direction, more than it, or less than some direction. *)
Theorem C03_max_velocity_characterisation : forall (t : StencilType) (s : R), 0 < s ->
  maxvel_spec (stencil_of t s) (maxvel_class t).
Proof. exact maxvel_ok. Qed.
Print Assumptions C03_max_velocity_characterisation.

Example C03_nonvacuous : maxvel_class Stencil_D3Q27 = MaxVelBelow /\ maxvel_class Stencil_D3Q19 = MaxVelExact.
Proof. split; reflexivity. Qed.
