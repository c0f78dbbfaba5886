(** Symmetries: sums, scalar products, moments, equilibria, relaxation and forces. *)
From Coq Require Import Permutation.
From Verif Require Import Prelude StencilData ModelStencils SpecStencils SpecCollision BigSum ProofStencils
  ProofWick ModelConfigNames ModelEquilibria ModelCollision SpecSetup ProofEquilibria ProofQuartic ProofEqMoments ProofRelax
  ProofCollideNode ProofForces ProofFixed SpecSymmetry.
Open Scope R_scope.

Lemma sumf_bijection n (p : nat -> nat) g : (forall i, (i < n)%nat -> (p i < n)%nat) ->
  (forall i j, (i < n)%nat -> (j < n)%nat -> p i = p j -> i = j) -> sumf n (fun i => g (p i)) = sumf n g.
Proof.
  intros Hr Hi. rewrite !sumf_suml, <- (suml_map g p). apply suml_perm. apply NoDup_Permutation_bis.
  - assert (H : forall l, NoDup l -> (forall x, In x l -> (x < n)%nat) -> NoDup (map p l)).
    { induction l as [|x l IH]; intros Hd Hl; [constructor|]. inversion Hd as [|? ? Hx Hd']; subst. cbn [map]. constructor.
      - intros Hin. apply in_map_iff in Hin. destruct Hin as (y & Hy & Hin). apply Hx.
        rewrite <- (Hi y x); [assumption|apply Hl; right; assumption|apply Hl; left; reflexivity|assumption].
      - apply IH; [assumption|]. intros z Hz. apply Hl. right. assumption. }
    apply H; [apply seq_NoDup|]. intros x Hx. apply in_seq in Hx. lia.
  - rewrite map_length. reflexivity.
  - intros y Hy. apply in_map_iff in Hy. destruct Hy as (x & <- & Hx). apply in_seq in Hx. apply in_seq. pose proof (Hr x). lia.
Qed.

Lemma turned_dot D A u v : (forall a b, (a < D)%nat -> (b < D)%nat -> sumf D (fun c => A c a * A c b) = delta a b) ->
  sumf D (fun a => turned D A u a * turned D A v a) = sumf D (fun a => u a * v a).
Proof.
  intros H. transitivity (sumf D (fun a => sumf D (fun b => sumf D (fun c => u b * v c * (A a b * A a c))))).
  { apply sumf_ext. intros a _. unfold turned. rewrite <- sumf_scal_r. apply sumf_ext. intros b _. rewrite <- sumf_scal. apply sumf_ext. intros c _. ring. }
  rewrite sumf_swap. apply sumf_ext. intros b Hb. rewrite sumf_swap.
  transitivity (sumf D (fun c => delta b c * (u b * v c))).
  { apply sumf_ext. intros c Hc. rewrite sumf_scal, H by assumption. ring. }
  apply (sumf_delta D b (fun c => u b * v c)). assumption.
Qed.

Lemma turned_ext D A u u' a : (forall b, (b < D)%nat -> u b = u' b) -> turned D A u a = turned D A u' a.
Proof. intros H. apply sumf_ext. intros b Hb. rewrite (H b Hb). reflexivity. Qed.
Lemma turned_scal D A c u a : turned D A (fun b => c * u b) a = c * turned D A u a.
Proof. unfold turned. rewrite <- sumf_scal. apply sumf_ext. intros b _. ring. Qed.
Lemma turned_plus D A u v a : turned D A (fun b => u b + v b) a = turned D A u a + turned D A v a.
Proof. unfold turned. rewrite <- sumf_plus. apply sumf_ext. intros b _. ring. Qed.

Lemma symmetry_unscale st s A pi : symmetry st A pi -> symmetry (unscale st s) A pi.
Proof.
  intros [H1 H2 H3 H4 H5]. constructor; cbn [unscale st_D st_Q st_e st_w]; try assumption.
  intros i a Hi Ha. rewrite (H4 i a Hi Ha). unfold Rdiv. rewrite Rmult_comm, <- turned_scal. apply turned_ext. intros b _. ring.
Qed.

Section Lattice.
Variable L : stencil.
Variable A : nat -> nat -> R.
Variable pi : nat -> nat.
Hypothesis Sy : symmetry L A pi.

Lemma sy_sum g : sumf (st_Q L) g = sumf (st_Q L) (fun i => g (pi i)).
Proof. symmetry. apply sumf_bijection; [apply (sy_range L A pi Sy)|apply (sy_injective L A pi Sy)]. Qed.

Lemma sy_mass f f' : turned_populations L pi f f' -> sumf (st_Q L) f' = sumf (st_Q L) f.
Proof. intros H. rewrite sy_sum. apply sumf_ext. exact H. Qed.

Lemma sy_velocity f f' rho : turned_populations L pi f f' ->
  turned_vector L A (calculateVelocity_generic L f rho) (calculateVelocity_generic L f' rho).
Proof.
  intros H a Ha. unfold calculateVelocity_generic. rewrite sy_sum.
  rewrite (sumf_ext (st_Q L) _ (fun i => sumf (st_D L) (fun b => A a b * (st_e L i b * f i)))).
  - rewrite sumf_swap. unfold turned, Rdiv. rewrite Rmult_assoc, <- sumf_scal_r. apply sumf_ext. intros b _. rewrite sumf_scal. ring.
  - intros i Hi. rewrite (sy_direction L A pi Sy i a Hi Ha), (H i Hi). unfold turned. rewrite <- sumf_scal_r. apply sumf_ext. intros b _. ring.
Qed.

Lemma sy_ue u u' i : turned_vector L A u u' -> (i < st_Q L)%nat -> ue_term L u' (pi i) = ue_term L u i.
Proof.
  intros H Hi. unfold ue_term, Rdiv. rewrite !sumf_scal_r. f_equal.
  rewrite <- (turned_dot (st_D L) A u (st_e L i) (sy_isometry L A pi Sy)). apply sumf_ext. intros a Ha.
  rewrite (H a Ha), (sy_direction L A pi Sy i a Hi Ha). reflexivity.
Qed.
Lemma sy_uu u u' : turned_vector L A u u' -> uu_term L u' = uu_term L u.
Proof.
  intros H. unfold uu_term, Rdiv. rewrite !sumf_scal_r, !sumf_opp. f_equal. f_equal.
  rewrite <- (turned_dot (st_D L) A u u (sy_isometry L A pi Sy)). apply sumf_ext. intros a Ha. rewrite (H a Ha). reflexivity.
Qed.
Lemma sy_ee i j : (i < st_Q L)%nat -> (j < st_Q L)%nat ->
  sumf (st_D L) (fun a => st_e L (pi i) a * st_e L (pi j) a) = sumf (st_D L) (fun a => st_e L i a * st_e L j a).
Proof.
  intros Hi Hj. rewrite <- (turned_dot (st_D L) A (st_e L i) (st_e L j) (sy_isometry L A pi Sy)). apply sumf_ext. intros a Ha.
  rewrite !(sy_direction L A pi Sy) by assumption. reflexivity.
Qed.

(** The quartic equilibrium in terms of scalar products. *)
Definition quartic_scalar (D w cs2 rho T X U E : R) : R :=
  let T1 := cs2 * (T - 1) in
  w * rho * (1 + X / cs2 * (1 + 1/2 * (X / cs2)) - U / (2 * cs2))
  + rho * w / (2 * cs2) * (T - 1) * (E - cs2 * D)
  + w * rho / (6 * cs2 * cs2 * cs2) * (X * X * X - 3 * cs2 * X * U + T1 * 3 * X * (E - cs2 * (D + 2)))
  + w * rho / (24 * cs2 * cs2 * cs2 * cs2) *
    (X * X * X * X - 6 * cs2 * X * X * U + 3 * cs2 * cs2 * U * U
     + T1 * 6 * (X * X * E - cs2 * (X * X * (D + 4) + U * E) + cs2 * cs2 * U * (D + 2))
     + T1 * T1 * 3 * (E * E - cs2 * E * (2 * D + 4) + cs2 * cs2 * D * (D + 2))).

Lemma quartic_is_scalar rho u T i : st_cs2 L <> 0 -> st_D L = 2%nat \/ st_D L = 3%nat ->
  QuarticEquilibrium_calc L rho u T i =
  quartic_scalar (INR (st_D L)) (st_w L i) (st_cs2 L) rho T (sumf (st_D L) (fun a => u a * st_e L i a))
    (sumf (st_D L) (fun a => u a * u a)) (sumf (st_D L) (fun a => st_e L i a * st_e L i a)).
Proof.
  intros Hc HD. unfold QuarticEquilibrium_calc, quartic_scalar, ue_term, uu_term, H3, H4.
  destruct HD as [E|E]; rewrite E; cbn [Nat.eqb sumf delta INR];
    set (c := st_cs2 L) in *; set (w := st_w L i); set (x := st_e L i 0%nat); set (y := st_e L i 1%nat); try set (z := st_e L i 2%nat);
    unfold delta; cbn [Nat.eqb]; field; assumption.
Qed.

Lemma sy_quartic rho u u' T i : st_cs2 L <> 0 -> st_D L = 2%nat \/ st_D L = 3%nat -> turned_vector L A u u' -> (i < st_Q L)%nat ->
  QuarticEquilibrium_calc L rho u' T (pi i) = QuarticEquilibrium_calc L rho u T i.
Proof.
  intros Hc HD H Hi. rewrite !quartic_is_scalar by assumption. rewrite (sy_weight L A pi Sy i Hi). f_equal.
  - rewrite <- (turned_dot (st_D L) A u (st_e L i) (sy_isometry L A pi Sy)). apply sumf_ext. intros a Ha.
    rewrite (H a Ha), (sy_direction L A pi Sy i a Hi Ha). reflexivity.
  - rewrite <- (turned_dot (st_D L) A u u (sy_isometry L A pi Sy)). apply sumf_ext. intros a Ha. rewrite (H a Ha). reflexivity.
  - apply sy_ee; assumption.
Qed.

(** The regularised collision in terms of scalar products. *)
Lemma reg_is_scalar tau f feq i :
  relax_Regularized L tau f feq i =
  feq i + (1 - 1 / tau) * (st_w L i / (2 * st_cs2 L * st_cs2 L) *
    sumf (st_Q L) (fun j => (f j - feq j) *
      (sumf (st_D L) (fun a => st_e L i a * st_e L j a) * sumf (st_D L) (fun a => st_e L i a * st_e L j a)
       - st_cs2 L * sumf (st_D L) (fun a => st_e L j a * st_e L j a)))).
Proof.
  unfold relax_Regularized. cbv zeta beta. f_equal. f_equal. set (k := st_w L i / (2 * st_cs2 L * st_cs2 L)).
  transitivity (sumf (st_D L) (fun b => sumf (st_D L) (fun c => sumf (st_Q L) (fun j =>
    k * ((f j - feq j) * (reg_Q L i b c * (st_e L j b * st_e L j c))))))).
  { apply sumf_ext. intros b _. apply sumf_ext. intros c _. rewrite <- sumf_minus, <- sumf_scal. apply sumf_ext. intros j _. ring. }
  transitivity (sumf (st_D L) (fun b => sumf (st_Q L) (fun j => sumf (st_D L) (fun c =>
    k * ((f j - feq j) * (reg_Q L i b c * (st_e L j b * st_e L j c))))))).
  { apply sumf_ext. intros b _. apply sumf_swap. }
  rewrite sumf_swap, <- sumf_scal. apply sumf_ext. intros j _.
  transitivity (k * ((f j - feq j) * sumf (st_D L) (fun b => sumf (st_D L) (fun c => reg_Q L i b c * (st_e L j b * st_e L j c))))).
  { rewrite <- sumf_scal, <- sumf_scal. apply sumf_ext. intros b _. rewrite <- sumf_scal, <- sumf_scal. apply sumf_ext. intros c _. reflexivity. }
  f_equal. f_equal. set (X := sumf (st_D L) (fun a => st_e L i a * st_e L j a)).
  transitivity (sumf (st_D L) (fun b => st_e L i b * st_e L j b * X - st_cs2 L * (st_e L j b * st_e L j b)));
    [|rewrite sumf_minus, sumf_scal_r, sumf_scal; reflexivity].
  apply sumf_ext. intros b Hb.
  transitivity (sumf (st_D L) (fun c => st_e L i b * st_e L j b * (st_e L i c * st_e L j c)) -
                sumf (st_D L) (fun c => delta b c * (st_cs2 L * (st_e L j b * st_e L j c)))).
  { rewrite <- sumf_minus. apply sumf_ext. intros c _. unfold reg_Q, delta. destruct (Nat.eqb b c); ring. }
  rewrite sumf_scal, (sumf_delta (st_D L) b (fun c => st_cs2 L * (st_e L j b * st_e L j c))) by assumption. reflexivity.
Qed.

Lemma sy_regularized tau f f' feq feq' : turned_populations L pi f f' -> turned_populations L pi feq feq' ->
  turned_populations L pi (relax_Regularized L tau f feq) (relax_Regularized L tau f' feq').
Proof.
  intros Hf He i Hi. rewrite !reg_is_scalar, (He i Hi), (sy_weight L A pi Sy i Hi). f_equal. f_equal. f_equal.
  rewrite sy_sum. apply sumf_ext. intros j Hj. rewrite (Hf j Hj), (He j Hj), !sy_ee by assumption. reflexivity.
Qed.
End Lattice.

(** ** Equilibria *)
Lemma same_bind {X Y X' Y'} (P : X -> Y -> Prop) (P' : X' -> Y' -> Prop) x y g h : same_outcome P x y ->
  (forall a b, x = Ok a -> y = Ok b -> P a b -> same_outcome P' (g a) (h b)) -> same_outcome P' (obind x g) (obind y h).
Proof. destruct x, y; cbn [same_outcome obind]; intros H Hg; try contradiction; try exact I. apply Hg; [reflexivity|reflexivity|assumption]. Qed.

Lemma sy_equilibrium q t s A pi gamma rho T u u' : s <> 0 -> symmetry (stencil_of t s) A pi ->
  turned_vector (stencil_of t s) A u u' ->
  same_outcome (turned_populations (stencil_of t s) pi) (eq_calc q (unscale (stencil_of t s) s) gamma rho u T)
    (eq_calc q (unscale (stencil_of t s) s) gamma rho u' T).
Proof.
  intros Hs Sy Hu. pose proof (symmetry_unscale _ s _ _ Sy) as SL. pose proof (sy_range _ _ _ Sy) as Hr.
  set (L := unscale (stencil_of t s) s) in *.
  assert (Hu' : turned_vector L A u u') by exact Hu.
  destruct q; cbn [eq_calc same_outcome]; try exact I; intros i Hi.
  - unfold L. rewrite !bgk_calc_generic by auto. fold L. unfold BGKEquilibrium_generic.
    rewrite (sy_weight L A pi SL i Hi), (sy_ue L A pi SL u u' i Hu' Hi), (sy_uu L A pi SL u u' Hu'). reflexivity.
  - apply (sy_quartic L A pi SL); [apply cs2_unscaled_neq0; assumption|apply st_dim|assumption|assumption].
  - unfold SteadyStateEquilibrium_calc.
    rewrite (sy_weight L A pi SL i Hi), (sy_ue L A pi SL u u' i Hu' Hi), (sy_uu L A pi SL u u' Hu'). reflexivity.
  - unfold IncompressibleEquilibrium_calc.
    rewrite (sy_weight L A pi SL i Hi), (sy_ue L A pi SL u u' i Hu' Hi), (sy_uu L A pi SL u u' Hu'). reflexivity.
Qed.
