(** Agreement of specialised and generic code; moments of the equilibria in
    physical (scaled) units for the shipped stencils. *)
From Coq Require Import QArith Qreals.
From Verif Require Import Prelude StencilData ModelStencils SpecStencils SpecCollision BigSum ProofStencils
  ProofStencilMoments ProofWick ModelEquilibria ProofEquilibria ProofQuartic.
Open Scope R_scope.

(** ** Specialised code *)
Ltac lit := unfold tbl, tblQ, wtbl; cbn [nth D2Q9_dir D2Q9_wt D3Q19_dir D3Q19_wt]; unfold Q2R; cbn [QArith_base.Qnum QArith_base.Qden].

Lemma bgk_2_9_ok s rho u i : s <> 0 -> (i < 9)%nat ->
  BGKEquilibrium_2_9 (unscale (D2Q9 s) s) rho u i = BGKEquilibrium_generic (unscale (D2Q9 s) s) rho u i.
Proof.
  intros Hs Hi. unfold BGKEquilibrium_2_9, BGKEquilibrium_generic, uu_term, ue_term.
  cbn [unscale D2Q9 st_D st_cs2 st_e st_w sumf].
  do 9 (destruct i as [|i]; [lit; field; repeat split; assumption|]). lia.
Qed.

Lemma vel_2_9_ok s f rho j : s <> 0 -> rho <> 0 -> (j < 2)%nat ->
  calculateVelocity_2_9 f rho j = calculateVelocity_generic (unscale (D2Q9 s) s) f rho j.
Proof.
  intros Hs Hr Hj. unfold calculateVelocity_2_9, calculateVelocity_generic.
  cbn [unscale D2Q9 st_Q st_e sumf].
  do 2 (destruct j as [|j]; [lit; field; repeat split; assumption|]). lia.
Qed.

Lemma vel_3_19_ok s f rho j : s <> 0 -> rho <> 0 -> (j < 3)%nat ->
  calculateVelocity_3_19 f rho j = calculateVelocity_generic (unscale (D3Q19 s) s) f rho j.
Proof.
  intros Hs Hr Hj. unfold calculateVelocity_3_19, calculateVelocity_generic.
  cbn [unscale D3Q19 st_Q st_e sumf].
  do 3 (destruct j as [|j]; [lit; field; repeat split; assumption|]). lia.
Qed.

Lemma bgk_calc_generic t s rho u i : s <> 0 -> (i < st_Q (stencil_of t s))%nat ->
  BGKEquilibrium_calc (unscale (stencil_of t s) s) rho u i = BGKEquilibrium_generic (unscale (stencil_of t s) s) rho u i.
Proof. intros Hs Hi. destruct t; try reflexivity. apply bgk_2_9_ok; assumption. Qed.

Lemma velocity_generic t s f rho j : s <> 0 -> rho <> 0 -> (j < st_D (stencil_of t s))%nat ->
  calculateVelocity (unscale (stencil_of t s) s) f rho j =
  calculateVelocity_generic (unscale (stencil_of t s) s) f rho j.
Proof.
  intros Hs Hr Hj. destruct t; try reflexivity.
  - apply vel_2_9_ok; assumption.
  - apply vel_3_19_ok; assumption.
Qed.

(** ** Scaled and unscaled moments *)
Section Units.
  Variables (st : stencil) (s : R).
  Hypothesis Hs : s <> 0.
  Let L := unscale st s.
  Lemma mass_unscale f : mass st f = mass L f.
  Proof. reflexivity. Qed.
  Lemma momentum_unscale f a : momentum st f a = s * momentum L f a.
  Proof. unfold momentum. rewrite <- sumf_scal. apply sumf_ext. intros. cbn [L unscale st_e]. field. assumption. Qed.
  Lemma moment2_unscale f a b : moment2 st f a b = s * s * moment2 L f a b.
  Proof. unfold moment2. rewrite <- sumf_scal. apply sumf_ext. intros. cbn [L unscale st_e]. field. assumption. Qed.
  Lemma moment3_unscale f a b c : moment3 st f a b c = s * s * s * moment3 L f a b c.
  Proof. unfold moment3. rewrite <- sumf_scal. apply sumf_ext. intros. cbn [L unscale st_e]. field. assumption. Qed.
End Units.

Lemma mass_ext st f g : (forall i, (i < st_Q st)%nat -> f i = g i) -> mass st f = mass st g.
Proof. apply sumf_ext. Qed.
Lemma momentum_ext st f g a : (forall i, (i < st_Q st)%nat -> f i = g i) -> momentum st f a = momentum st g a.
Proof. intros H. apply sumf_ext. intros. rewrite H by assumption. reflexivity. Qed.
Lemma moment2_ext st f g a b : (forall i, (i < st_Q st)%nat -> f i = g i) -> moment2 st f a b = moment2 st g a b.
Proof. intros H. apply sumf_ext. intros. rewrite H by assumption. reflexivity. Qed.
Lemma moment3_ext st f g a b c : (forall i, (i < st_Q st)%nat -> f i = g i) -> moment3 st f a b c = moment3 st g a b c.
Proof. intros H. apply sumf_ext. intros. rewrite H by assumption. reflexivity. Qed.

(** From expectations to moments. *)
Lemma mass_Ex L r p : mass L (fun i => st_w L i * r * p i) = r * Ex L p.
Proof. unfold mass, Ex. rewrite <- sumf_scal. apply sumf_ext. intros. ring. Qed.
Lemma momentum_Ex L r p a : momentum L (fun i => st_w L i * r * p i) a = r * Ex L (fun i => p i * st_e L i a).
Proof. unfold momentum, Ex. rewrite <- sumf_scal. apply sumf_ext. intros. ring. Qed.
Lemma moment2_Ex L r p a b :
  moment2 L (fun i => st_w L i * r * p i) a b = r * Ex L (fun i => p i * st_e L i a * st_e L i b).
Proof. unfold moment2, Ex. rewrite <- sumf_scal. apply sumf_ext. intros. ring. Qed.
Lemma moment3_Ex L r p a b c :
  moment3 L (fun i => st_w L i * r * p i) a b c = r * Ex L (fun i => p i * st_e L i a * st_e L i b * st_e L i c).
Proof. unfold moment3, Ex. rewrite <- sumf_scal. apply sumf_ext. intros. ring. Qed.

(** ** Moments of each equilibrium in lattice units *)
Section LatticeUnits.
  Variables (L : stencil) (n : nat).
  Hypothesis Hiso : isotropic L n.
  Let D := st_D L.
  Let cs2 := st_cs2 L.
  Hypothesis Hcs : cs2 <> 0.
  Hypothesis Hn : (5 <= n)%nat.
  Variables (rho : R) (u : nat -> R).

  Lemma bgk_poly i : BGKEquilibrium_generic L rho u i = st_w L i * rho * poly2 L u (1 + uu_term L u) 1 (1/2) i.
  Proof. unfold BGKEquilibrium_generic, poly2. ring. Qed.
  Lemma ss_poly gamma i : SteadyStateEquilibrium_calc L gamma rho u i
    = st_w L i * rho * poly2 L u (1 + uu_term L u / gamma) 1 (1/2 / gamma) i.
  Proof. unfold SteadyStateEquilibrium_calc, poly2, Rdiv. ring. Qed.
  Lemma inc_poly i : IncompressibleEquilibrium_calc L rho u i
    = st_w L i * 1 * poly2 L u (rho + uu_term L u) 1 (1/2) i.
  Proof. unfold IncompressibleEquilibrium_calc, poly2. ring. Qed.

  Lemma bgk_mass : mass L (BGKEquilibrium_generic L rho u) = rho.
  Proof.
    rewrite (mass_ext L _ _ (fun i _ => bgk_poly i)), mass_Ex, (poly_mom0 L n Hiso Hcs), uu_dot by lia.
    fold D cs2. field. assumption.
  Qed.
  Lemma bgk_momentum a : (a < D)%nat -> momentum L (BGKEquilibrium_generic L rho u) a = rho * u a.
  Proof.
    intros Ha. rewrite (momentum_ext L _ _ a (fun i _ => bgk_poly i)), momentum_Ex, (poly_mom1 L n Hiso Hcs) by (assumption || lia).
    ring.
  Qed.
  Lemma bgk_moment2 a b : (a < D)%nat -> (b < D)%nat ->
    moment2 L (BGKEquilibrium_generic L rho u) a b = rho * (cs2 * delta a b + u a * u b).
  Proof.
    intros Ha Hb. rewrite (moment2_ext L _ _ a b (fun i _ => bgk_poly i)), moment2_Ex, (poly_mom2 L n Hiso Hcs), uu_dot
      by (assumption || lia). fold D cs2. field. assumption.
  Qed.
  Lemma bgk_moment3 a b c : (a < D)%nat -> (b < D)%nat -> (c < D)%nat ->
    moment3 L (BGKEquilibrium_generic L rho u) a b c
    = rho * cs2 * (u a * delta b c + u b * delta a c + u c * delta a b).
  Proof.
    intros Ha Hb Hc. rewrite (moment3_ext L _ _ a b c (fun i _ => bgk_poly i)), moment3_Ex, (poly_mom3 L n Hiso Hcs)
      by (assumption || lia). fold D cs2. ring.
  Qed.

  Lemma ss_mass gamma : mass L (SteadyStateEquilibrium_calc L gamma rho u) = rho.
  Proof.
    rewrite (mass_ext L _ _ (fun i _ => ss_poly gamma i)), mass_Ex, (poly_mom0 L n Hiso Hcs), uu_dot by lia.
    fold D cs2. unfold Rdiv. generalize (/ gamma); intros ig. field. assumption.
  Qed.
  Lemma ss_momentum gamma a : (a < D)%nat -> momentum L (SteadyStateEquilibrium_calc L gamma rho u) a = rho * u a.
  Proof.
    intros Ha. rewrite (momentum_ext L _ _ a (fun i _ => ss_poly gamma i)), momentum_Ex, (poly_mom1 L n Hiso Hcs) by (assumption || lia).
    ring.
  Qed.
  Lemma ss_moment2 gamma a b : (a < D)%nat -> (b < D)%nat ->
    moment2 L (SteadyStateEquilibrium_calc L gamma rho u) a b = rho * (cs2 * delta a b + u a * u b / gamma).
  Proof.
    intros Ha Hb. rewrite (moment2_ext L _ _ a b (fun i _ => ss_poly gamma i)), moment2_Ex, (poly_mom2 L n Hiso Hcs), uu_dot
      by (assumption || lia). fold D cs2. unfold Rdiv. generalize (/ gamma); intros ig. field. assumption.
  Qed.

  Lemma inc_mass : mass L (IncompressibleEquilibrium_calc L rho u) = rho.
  Proof.
    rewrite (mass_ext L _ _ (fun i _ => inc_poly i)), mass_Ex, (poly_mom0 L n Hiso Hcs), uu_dot by lia.
    fold D cs2. field. assumption.
  Qed.
  Lemma inc_momentum a : (a < D)%nat -> momentum L (IncompressibleEquilibrium_calc L rho u) a = u a.
  Proof.
    intros Ha. rewrite (momentum_ext L _ _ a (fun i _ => inc_poly i)), momentum_Ex, (poly_mom1 L n Hiso Hcs) by (assumption || lia).
    ring.
  Qed.
  Lemma inc_moment2 a b : (a < D)%nat -> (b < D)%nat ->
    moment2 L (IncompressibleEquilibrium_calc L rho u) a b = rho * cs2 * delta a b + u a * u b.
  Proof.
    intros Ha Hb. rewrite (moment2_ext L _ _ a b (fun i _ => inc_poly i)), moment2_Ex, (poly_mom2 L n Hiso Hcs), uu_dot
      by (assumption || lia). fold D cs2. field. assumption.
  Qed.

  Hypothesis HD : D = 2%nat \/ D = 3%nat.
  Variable T : R.
  Lemma q_mass : mass L (QuarticEquilibrium_calc L rho u T) = rho.
  Proof.
    rewrite (mass_ext L _ _ (fun i _ => quartic_split L HD rho T u i)), mass_Ex, (quartic_mom0 L n Hiso Hcs HD) by lia. ring.
  Qed.
  Lemma q_momentum a : (a < D)%nat -> momentum L (QuarticEquilibrium_calc L rho u T) a = rho * u a.
  Proof.
    intros Ha.
    rewrite (momentum_ext L _ _ a (fun i _ => quartic_split L HD rho T u i)), momentum_Ex, (quartic_mom1 L n Hiso Hcs HD) by (assumption || lia).
    ring.
  Qed.
  Lemma q_moment2 a b : (6 <= n)%nat -> (a < D)%nat -> (b < D)%nat ->
    moment2 L (QuarticEquilibrium_calc L rho u T) a b = rho * (T * cs2 * delta a b + u a * u b).
  Proof.
    intros Hn6 Ha Hb.
    rewrite (moment2_ext L _ _ a b (fun i _ => quartic_split L HD rho T u i)), moment2_Ex, (quartic_mom2 L n Hiso Hcs HD) by (assumption || lia).
    fold cs2. ring.
  Qed.
  Lemma q_moment3 a b c : (7 <= n)%nat -> (a < D)%nat -> (b < D)%nat -> (c < D)%nat ->
    moment3 L (QuarticEquilibrium_calc L rho u T) a b c =
    rho * (u a * u b * u c + T * cs2 * (u a * delta b c + u b * delta a c + u c * delta a b)).
  Proof.
    intros Hn7 Ha Hb Hc.
    rewrite (moment3_ext L _ _ a b c (fun i _ => quartic_split L HD rho T u i)), moment3_Ex, (quartic_mom3 L n Hiso Hcs HD) by (assumption || lia).
    fold cs2. ring.
  Qed.
End LatticeUnits.

(** ** Facts about the shipped stencils used below *)
Lemma st_dim t s : st_D (stencil_of t s) = 2%nat \/ st_D (stencil_of t s) = 3%nat.
Proof. destruct t; (left; reflexivity) || (right; reflexivity). Qed.
Lemma cs2_unscaled_neq0 t s : s <> 0 -> st_cs2 (unscale (stencil_of t s) s) <> 0.
Proof.
  intros Hs. assert (s * s <> 0) by nra.
  destruct t; cbn [stencil_of unscale st_cs2 D2Q9 D3Q15 D3Q19 D3Q27 RD3Q27 D3V27 D2Q19V D2Q19H D3Q45 D3Q77 D2Q777 D3Q13 D3Q21 D2Q25H];
  (match goal with |- s * s / ?k / (s * s) <> 0 => replace (s * s / k / (s * s)) with (/ k) by (field; assumption); lra end).
Qed.
Lemma iso_unscaled t s n : closed_form t = true -> s <> 0 -> (n <= moment_order t)%nat ->
  isotropic (unscale (stencil_of t s) s) n.
Proof.
  intros Hc Hs Hn. apply isotropic_unscale; [assumption|].
  eapply isotropic_le; [apply isotropic_all; assumption|assumption].
Qed.
Lemma order5 t : closed_form t = true -> (5 <= moment_order t)%nat.
Proof. destruct t; try discriminate; cbn; lia. Qed.
