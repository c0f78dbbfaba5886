(** Moments of the equilibria in physical units on every stencil, up to the tolerance of the stencil. *)
From Verif Require Import Prelude ModelStencils SpecStencils SpecCollision BigSum ProofStencils ProofStencilMoments ProofStencilHigh ProofWick
  ModelConfigNames ModelEquilibria ModelCollision SpecSetup ProofEquilibria ProofQuartic ProofEqMoments SpecNear ProofNear.
Local Open Scope R_scope.

Lemma high_ok t s : mom_ok (stencil_of t s) (high_order t) (high_tol t).
Proof.
  destruct t; cbn [high_order high_tol]; try apply (mom_ok_all _ s); cbn [stencil_of].
  all: exact (mom_ok_all Stencil_D2Q25H s) || apply high_D2Q19V || apply high_D2Q19H || apply high_D3V27 || apply high_D3Q45 || apply high_D3Q77.
Qed.
Lemma high_tmom t s l : Forall (fun a => (a < st_D (stencil_of t s))%nat) l -> (length l <= high_order t)%nat ->
  Rabs (tmom (stencil_of t s) l - IZR (wick l) * st_cs2 (stencil_of t s) ^ (Nat.div2 (length l)))
    <= high_tol t * Rabs (st_cs (stencil_of t s)) ^ (length l).
Proof. exact (near_iso_mom _ _ _ (high_ok t s) l). Qed.
Lemma low_near t s : near_iso (stencil_of t s) (moment_order t) (moment_tol t).
Proof. apply near_iso_mom, mom_ok_all. Qed.
Lemma high_near t s : near_iso (stencil_of t s) (high_order t) (high_tol t).
Proof. apply near_iso_mom, high_ok. Qed.

Section Phys.
  Variables (t : StencilType) (s : R).
  Hypothesis Hs : s <> 0.
  Let st := stencil_of t s.
  Let L := unscale st s.
  Let c := Rabs (st_cs L).
  Let HD : st_D L = 2%nat \/ st_D L = 3%nat := st_dim t s.

  Lemma csL : c = Rabs (st_cs st) / Rabs s.
  Proof. unfold c, L. cbn [unscale st_cs]. unfold Rdiv. now rewrite Rabs_mult, Rabs_inv. Qed.
  Lemma s_c : Rabs s * c = Rabs (st_cs st).
  Proof. rewrite csL. field. apply Rabs_no_R0. assumption. Qed.
  Lemma cs2_c : st_cs2 L = c * c.
  Proof.
    unfold c. rewrite <- Rabs_mult. unfold L. cbn [unscale st_cs st_cs2].
    destruct (cs_square t s) as [E _]. fold st in E. rewrite E.
    replace (st_cs st / s * (st_cs st / s)) with (st_cs st * st_cs st / (s * s)) by (field; assumption).
    symmetry. apply Rabs_right. apply Rle_ge. apply Rmult_le_pos; [nra|]. left. apply Rinv_0_lt_compat. nra.
  Qed.
  Lemma c_pos : 0 < c.
  Proof.
    assert (H0 : 0 <= c) by apply Rabs_pos. pose proof (cs2_unscaled_neq0 t s Hs) as H. fold st L in H. rewrite cs2_c in H.
    destruct H0 as [|H0]; [assumption|]. exfalso. apply H. rewrite <- H0. ring.
  Qed.
  Lemma cs2_st : st_cs2 st = s * s * (c * c).
  Proof. rewrite <- cs2_c. unfold L. cbn [unscale st_cs2]. field. assumption. Qed.
  Lemma s2_c2 : s * s * (c * c) = Rabs (st_cs st) * Rabs (st_cs st).
  Proof.
    rewrite <- s_c. replace (s * s) with (Rabs s * Rabs s); [ring|]. rewrite <- Rabs_mult. apply Rabs_right, Rle_ge. nra.
  Qed.

  Variables (n : nat) (tol : R).
  Hypothesis Hn : (n <= 7)%nat.
  Hypothesis Hnear : near_iso st n tol.
  Let HL : near_iso L n tol := near_iso_unscale st s n tol Hs Hnear.
  Variables (v : nat -> R) (f : nat -> R).
  Let u := fun a => v a / s.

  Lemma mach_L : sumf (st_D L) (fun a => Rabs (u a)) / c = mach st v.
  Proof.
    unfold mach. change (st_D L) with (st_D st). rewrite <- s_c.
    rewrite (sumf_ext _ _ (fun a => Rabs (v a) * / Rabs s)).
    - rewrite sumf_scal_r. field. pose proof c_pos. pose proof (Rabs_no_R0 s Hs). split; lra.
    - intros a _. unfold u, Rdiv. rewrite Rabs_mult, Rabs_inv. reflexivity.
  Qed.

  (** A bound in lattice units is a bound in physical units. *)
  Lemma to_phys k x y z B : Rabs (x - y) <= tol * B * z -> Rabs (k * x - k * y) <= tol * Rabs k * B * z.
  Proof.
    intros H. rewrite <- Rmult_minus_distr_l, Rabs_mult. replace (tol * Rabs k * B * z) with (Rabs k * (tol * B * z)) by ring.
    apply Rmult_le_compat_l; [apply Rabs_pos|exact H].
  Qed.

  (** *** Second-order polynomials *)
  Section P2.
    Variables (r A A' B C : R).
    Hypothesis HA : Rabs A <= A'.
    Hypothesis Hf : forall i, (i < st_Q L)%nat -> f i = st_w L i * r * poly2 L u A B C i.
    Let N := A' + Rabs B * mach st v + Rabs C * (mach st v * mach st v).
    Let L0 := exact (st_D L) c.
    Let u2 := dot (st_D st) v v.
    Lemma L0_ne : st_cs2 L0 <> 0.
    Proof. cbn. pose proof c_pos. nra. Qed.
    Lemma u2_L : dot (st_D L0) u u = u2 / (s * s).
    Proof.
      unfold u2, dot. unfold Rdiv. rewrite <- sumf_scal_r. apply sumf_ext. intros a _. unfold u. field. assumption.
    Qed.

    Lemma near_poly_mass : (2 <= n)%nat -> Rabs (mass st f - r * (A + C * u2 / st_cs2 st)) <= tol * Rabs r * N.
    Proof.
      intros H2. rewrite (mass_unscale st s). fold L. rewrite (mass_ext L _ _ Hf), mass_Ex.
      replace (A + C * u2 / st_cs2 st) with (Ex L0 (poly2 L0 u A B C)).
      2:{ rewrite (poly_mom0 L0 7 (exact_isotropic _ _) L0_ne) by lia. rewrite u2_L, cs2_st. cbn [L0 exact st_cs2]. field.
          pose proof c_pos. repeat split; assumption || lra. }
      pose proof (to_phys r (Ex L (poly2 L u A B C)) (Ex L0 (poly2 L0 u A B C)) 1 N) as K. rewrite !Rmult_1_r in K. apply K.
      unfold N. rewrite <- mach_L. apply (near_poly0 L n tol c c_pos eq_refl cs2_c Hn HL u HD A A' B C HA). lia.
    Qed.
    Lemma near_poly_momentum a : (3 <= n)%nat -> (a < st_D st)%nat ->
      Rabs (momentum st f a - r * B * v a) <= tol * Rabs r * N * Rabs (st_cs st).
    Proof.
      intros H2 Ha. rewrite (momentum_unscale st s Hs). fold L. rewrite (momentum_ext L _ _ a Hf), momentum_Ex.
      replace (s * (r * Ex L (fun i => poly2 L u A B C i * st_e L i a))) with (s * r * Ex L (fun i => poly2 L u A B C i * st_e L i a)) by ring.
      replace (r * B * v a) with (s * r * Ex L0 (fun i => poly2 L0 u A B C i * st_e L0 i a)).
      2:{ rewrite (poly_mom1 L0 7 (exact_isotropic _ _) L0_ne) by (assumption || lia). unfold u. field. assumption. }
      eapply Rle_trans; [apply (to_phys (s * r) _ _ c N)|].
      - unfold N. rewrite <- mach_L. apply (near_poly1 L n tol c c_pos eq_refl cs2_c Hn HL u HD A A' B C HA); assumption || lia.
      - right. rewrite Rabs_mult, <- s_c. ring.
    Qed.
    Lemma near_poly_moment2 a b : (4 <= n)%nat -> (a < st_D st)%nat -> (b < st_D st)%nat ->
      Rabs (moment2 st f a b - r * (A * st_cs2 st * delta a b + C * (u2 * delta a b + 2 * v a * v b))) <= tol * Rabs r * N * Rabs (st_cs st) ^ 2.
    Proof.
      intros H2 Ha Hb. rewrite (moment2_unscale st s Hs). fold L. rewrite (moment2_ext L _ _ a b Hf), moment2_Ex.
      rewrite <- (Rmult_assoc (s * s)).
      replace (r * (A * st_cs2 st * delta a b + C * (u2 * delta a b + 2 * v a * v b)))
        with (s * s * r * Ex L0 (fun i => poly2 L0 u A B C i * st_e L0 i a * st_e L0 i b)).
      2:{ rewrite (poly_mom2 L0 7 (exact_isotropic _ _) L0_ne) by (assumption || lia). rewrite u2_L, cs2_st. cbn [L0 exact st_cs2]. unfold u. field. assumption. }
      eapply Rle_trans; [apply (to_phys (s * s * r) _ _ (c * c) N)|].
      - unfold N. rewrite <- mach_L. apply (near_poly2 L n tol c c_pos eq_refl cs2_c Hn HL u HD A A' B C HA); assumption || lia.
      - right. rewrite !Rabs_mult, <- s_c. ring.
    Qed.
    Lemma near_poly_moment3 a b d : (5 <= n)%nat -> (a < st_D st)%nat -> (b < st_D st)%nat -> (d < st_D st)%nat ->
      Rabs (moment3 st f a b d - r * B * st_cs2 st * (v a * delta b d + v b * delta a d + v d * delta a b)) <= tol * Rabs r * N * Rabs (st_cs st) ^ 3.
    Proof.
      intros H2 Ha Hb Hd. rewrite (moment3_unscale st s Hs). fold L. rewrite (moment3_ext L _ _ a b d Hf), moment3_Ex.
      rewrite <- (Rmult_assoc (s * s * s)).
      replace (r * B * st_cs2 st * (v a * delta b d + v b * delta a d + v d * delta a b))
        with (s * s * s * r * Ex L0 (fun i => poly2 L0 u A B C i * st_e L0 i a * st_e L0 i b * st_e L0 i d)).
      2:{ rewrite (poly_mom3 L0 7 (exact_isotropic _ _) L0_ne) by (assumption || lia). rewrite cs2_st. cbn [L0 exact st_cs2]. unfold u. field. assumption. }
      eapply Rle_trans; [apply (to_phys (s * s * s * r) _ _ (c * c * c) N)|].
      - unfold N. rewrite <- mach_L. apply (near_poly3 L n tol c c_pos eq_refl cs2_c Hn HL u HD A A' B C HA); assumption || lia.
      - right. rewrite !Rabs_mult, <- s_c. ring.
    Qed.
  End P2.

  (** *** Quartic equilibrium *)
  Section P4.
    Variables (rho T : R).
    Hypothesis Hf : forall i, (i < st_Q L)%nat -> f i = QuarticEquilibrium_calc L rho u T i.
    Let M := expansion_size st v T.
    Lemma M_L : (1 + sumf (st_D L) (fun a => Rabs (u a)) / c + INR (st_D L) * Rabs (T - 1)) ^ 4 = M.
    Proof. unfold M, expansion_size. rewrite mach_L. reflexivity. Qed.
    Let Hf' : forall i, (i < st_Q L)%nat -> f i = st_w L i * rho * quartic_poly L T u i.
    Proof. intros i Hi. rewrite (Hf i Hi). apply (quartic_split L HD). Qed.

    Lemma near_q_mass : (4 <= n)%nat -> Rabs (mass st f - rho) <= tol * Rabs rho * M.
    Proof.
      intros H4. rewrite (mass_unscale st s). fold L. rewrite (mass_ext L _ _ Hf'), mass_Ex.
      pose proof (to_phys rho (Ex L (quartic_poly L T u)) 1 1 M) as K. rewrite !Rmult_1_r in K. apply K.
      rewrite <- M_L. apply (near_quartic0 L n tol c c_pos eq_refl cs2_c Hn HL u T HD H4).
    Qed.
    Lemma near_q_momentum a : (5 <= n)%nat -> (a < st_D st)%nat -> Rabs (momentum st f a - rho * v a) <= tol * Rabs rho * M * Rabs (st_cs st).
    Proof.
      intros H4 Ha. rewrite (momentum_unscale st s Hs). fold L. rewrite (momentum_ext L _ _ a Hf'), momentum_Ex, <- (Rmult_assoc s).
      replace (rho * v a) with (s * rho * u a) by (unfold u; field; assumption).
      eapply Rle_trans; [apply (to_phys (s * rho) _ _ c M)|].
      - rewrite <- M_L. apply (near_quartic1 L n tol c c_pos eq_refl cs2_c Hn HL u T HD a H4 Ha).
      - right. rewrite Rabs_mult, <- s_c. ring.
    Qed.
    Lemma near_q_moment2 a b : (6 <= n)%nat -> (a < st_D st)%nat -> (b < st_D st)%nat ->
      Rabs (moment2 st f a b - rho * (T * st_cs2 st * delta a b + v a * v b)) <= tol * Rabs rho * M * Rabs (st_cs st) ^ 2.
    Proof.
      intros H4 Ha Hb. rewrite (moment2_unscale st s Hs). fold L. rewrite (moment2_ext L _ _ a b Hf'), moment2_Ex, <- (Rmult_assoc (s * s)).
      replace (rho * (T * st_cs2 st * delta a b + v a * v b)) with (s * s * rho * (T * (c * c) * delta a b + u a * u b))
        by (rewrite cs2_st; unfold u; field; assumption).
      eapply Rle_trans; [apply (to_phys (s * s * rho) _ _ (c * c) M)|].
      - rewrite <- M_L. apply (near_quartic2 L n tol c c_pos eq_refl cs2_c Hn HL u T HD a b H4 Ha Hb).
      - right. rewrite !Rabs_mult, <- s_c. ring.
    Qed.
    Lemma near_q_moment3 a b d : (7 <= n)%nat -> (a < st_D st)%nat -> (b < st_D st)%nat -> (d < st_D st)%nat ->
      Rabs (moment3 st f a b d - rho * (v a * v b * v d + T * st_cs2 st * (v a * delta b d + v b * delta a d + v d * delta a b)))
        <= tol * Rabs rho * M * Rabs (st_cs st) ^ 3.
    Proof.
      intros H4 Ha Hb Hd. rewrite (moment3_unscale st s Hs). fold L. rewrite (moment3_ext L _ _ a b d Hf'), moment3_Ex, <- (Rmult_assoc (s * s * s)).
      replace (rho * (v a * v b * v d + T * st_cs2 st * (v a * delta b d + v b * delta a d + v d * delta a b)))
        with (s * s * s * rho * (u a * u b * u d + T * (c * c) * (u a * delta b d + u b * delta a d + u d * delta a b)))
        by (rewrite cs2_st; unfold u; field; assumption).
      eapply Rle_trans; [apply (to_phys (s * s * s * rho) _ _ (c * c * c) M)|].
      - rewrite <- M_L. apply (near_quartic3 L n tol c c_pos eq_refl cs2_c Hn HL u T HD a b d H4 Ha Hb Hd).
      - right. rewrite !Rabs_mult, <- s_c. ring.
    Qed.
  End P4.
End Phys.
