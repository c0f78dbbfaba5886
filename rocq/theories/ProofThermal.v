(** The equilibrium assigned by SLEquilibriumBoundary is the quartic equilibrium of the collision. *)
From Verif Require Import Prelude BigSum ModelStencils ModelConfigNames ModelEquilibria ModelCollision SpecStencils SpecCollision SpecSetup
  ModelSemiLagrangian ModelWalls ModelThermalWalls.
From Verif Require Import ProofStencils ProofWick ProofEquilibria ProofQuartic ProofPhysical ProofNearCollide.
Local Open Scope R_scope.

(** Scaling. *)
Lemma sl_scale st s u T a : s <> 0 -> st_cs2 st <> 0 -> sl_equilibrium (unscale st s) (fun i => u i / s) T a = sl_equilibrium st u T a.
Proof.
  intros Hs Hc. unfold sl_equilibrium. cbv zeta. cbn [unscale st_D st_w st_e st_cs2].
  f_equal.
  - rewrite (sumf_ext (st_D st) (fun j => u j / s * (st_e st a j / s) / (st_cs2 st / (s * s))) (fun j => u j * st_e st a j / st_cs2 st)) by (intros; field; split; assumption).
    rewrite (sumf_ext (st_D st) (fun j => - (u j / s * (u j / s)) / (2 * (st_cs2 st / (s * s)))) (fun j => - (u j * u j) / (2 * st_cs2 st))) by (intros; field; split; assumption).
    reflexivity.
  - apply sumf_ext. intros x Hx. apply sumf_ext. intros y Hy. f_equal; [field; split; assumption|].
    apply sumf_ext. intros z Hz. f_equal; [field; split; assumption|].
    apply sumf_ext. intros v Hv. field. split; assumption.
Qed.

Section Value.
  Variables (L : stencil) (u : nat -> R) (T : R) (i : nat).
  Hypothesis HD : st_D L = 2%nat \/ st_D L = 3%nat.
  Let F3 a b c := c3 L T u a b c * H3 L i a b c.
  Let F4 a b c d := c4 L T u a b c d * H4 L i a b c d.
  Lemma delta_sym a b : delta a b = delta b a.
  Proof. unfold delta. rewrite Nat.eqb_sym. reflexivity. Qed.
  Let F3_12 a b : forall c, F3 a b c = F3 b a c.
  Proof. intros c. unfold F3, c3, H3. cbv zeta. rewrite (delta_sym b a). ring. Qed.
  Let F3_23 b c : forall a, F3 a b c = F3 a c b.
  Proof. intros a. unfold F3, c3, H3. cbv zeta. rewrite (delta_sym c b). ring. Qed.
  Let F4_12 a b : forall c d, F4 a b c d = F4 b a c d.
  Proof. intros c d. unfold F4, c4, H4. cbv zeta. rewrite (delta_sym b a). ring. Qed.
  Let F4_23 b c : forall a d, F4 a b c d = F4 a c b d.
  Proof. intros a d. unfold F4, c4, H4. cbv zeta. rewrite (delta_sym c b). ring. Qed.
  Let F4_34 c d : forall a b, F4 a b c d = F4 a b d c.
  Proof. intros a b. unfold F4, c4, H4. cbv zeta. rewrite (delta_sym d c). ring. Qed.

  Lemma sum3 : sumf (st_D L) (fun a => sumf (st_D L) (fun b => sumf (st_D L) (fun c => F3 a b c))) = P3 L (l3 L T u) i.
  Proof.
    unfold P3, l3. destruct HD as [-> | ->]; cbn [Nat.eqb sumf]; unfold l3_3, l3_2, mk3; cbn [app suml].
    - rewrite ?(F3_12 1 0), ?(F3_23 1 0), ?(F3_12 1 0). unfold F3. ring.
    - repeat (rewrite ?(F3_12 1 0), ?(F3_12 2 0), ?(F3_12 2 1), ?(F3_23 1 0), ?(F3_23 2 0), ?(F3_23 2 1)). unfold F3. ring.
  Qed.
  Lemma sum4 : sumf (st_D L) (fun a => sumf (st_D L) (fun b => sumf (st_D L) (fun c => sumf (st_D L) (fun d => F4 a b c d)))) = P4 L (l4 L T u) i.
  Proof.
    unfold P4, l4. destruct HD as [-> | ->]; cbn [Nat.eqb sumf]; unfold l4_3, l4_2, mk4; cbn [app suml].
    - do 4 (rewrite ?(F4_12 1 0), ?(F4_23 1 0), ?(F4_34 1 0)). unfold F4. ring.
    - do 4 (rewrite ?(F4_12 1 0), ?(F4_12 2 0), ?(F4_12 2 1), ?(F4_23 1 0), ?(F4_23 2 0), ?(F4_23 2 1), ?(F4_34 1 0), ?(F4_34 2 0), ?(F4_34 2 1)).
      unfold F4. ring.
  Qed.

  Lemma sl_quartic : sl_equilibrium L u T i = QuarticEquilibrium_calc L 1 u T i.
  Proof.
    rewrite (quartic_split L HD). unfold quartic_poly. rewrite <- sum3, <- sum4. unfold sl_equilibrium. cbv zeta.
    pose proof (tr_double L 1 T i) as E.
    match goal with |- _ + sumf ?n ?f = _ => rewrite (sumf_ext n f (fun alp => sumf (st_D L) (fun bet => 1 * st_w L i / (2 * st_cs2 L) * ((T - 1) * delta alp bet * st_e L i alp * st_e L i bet - st_cs2 L * delta alp bet * (T - 1))
      ) + (st_w L i * / (6 * st_cs2 L * st_cs2 L * st_cs2 L) * sumf (st_D L) (fun bet => sumf (st_D L) (fun gam => F3 alp bet gam))
       + st_w L i * / (24 * st_cs2 L * st_cs2 L * st_cs2 L * st_cs2 L) * sumf (st_D L) (fun bet => sumf (st_D L) (fun gam => sumf (st_D L) (fun det => F4 alp bet gam det)))))) end.
    2:{ intros x Hx. cbv beta. rewrite sumf_plus. f_equal. rewrite <- !sumf_scal, <- sumf_plus. apply sumf_ext. intros y Hy.
        rewrite <- !sumf_scal, <- sumf_plus. apply sumf_ext. intros v Hv. rewrite <- !sumf_scal. f_equal.
        - unfold F3, c3, H3. cbv zeta. unfold Rdiv. ring.
        - apply sumf_ext. intros p Hp. unfold F4, c4, H4. cbv zeta. unfold Rdiv. ring. }
    rewrite !sumf_plus, !sumf_scal. rewrite E. unfold poly2, uu_term, ue_term. ring.
  Qed.
End Value.
