(** Expectations with respect to weights that are isotropic up to a tolerance. *)
From Verif Require Import Prelude ModelStencils SpecStencils SpecCollision BigSum ProofStencils ProofStencilMoments ProofWick
  ModelEquilibria ProofEquilibria ProofQuartic ProofEqMoments.
Local Open Scope R_scope.

(** ** An exactly isotropic lattice of order seven for every dimension and speed of sound *)
Definition node7 (j : nat) : R := match j with 0%nat => 0 | 1%nat => 1 | 2%nat => -1 | 3%nat => 2 | 4%nat => -2 | 5%nat => 3 | _ => -3 end.
Definition w7 (j : nat) : R := match j with 0%nat => 7/18 | 1%nat | 2%nat => 1/4 | 3%nat | 4%nat => 1/20 | _ => 1/180 end.
Fixpoint wprod (D i : nat) : R := match D with O => 1 | S D' => w7 (i mod 7) * wprod D' (i / 7) end.
Definition exact (D : nat) (c : R) : stencil :=
  {| st_D := D; st_Q := 7 ^ D; st_e := fun i a => c * node7 ((i / 7 ^ a) mod 7); st_w := wprod D;
     st_opp := fun _ => None; st_cs := c; st_cs2 := c * c; st_maxvel := 0 |}.

Lemma sumf_app n m F : sumf (n + m) F = sumf n F + sumf m (fun j => F (n + j)%nat).
Proof.
  induction m as [|m IH]; [rewrite Nat.add_0_r; cbn; ring|].
  rewrite Nat.add_succ_r. cbn [sumf]. rewrite IH. ring.
Qed.
Lemma sumf_block n m F : sumf (m * n) F = sumf n (fun i => sumf m (fun j => F (m * i + j)%nat)).
Proof.
  induction n as [|n IH]; [rewrite Nat.mul_0_r; reflexivity|].
  rewrite Nat.mul_succ_r, sumf_app, IH. cbn [sumf]. reflexivity.
Qed.

Lemma monomial_shift D c i j : (j < 7)%nat -> forall ks a,
  monomial (exact (S D) c) (7 * i + j) (S a) ks = monomial (exact D c) i a ks.
Proof.
  intros Hj. induction ks as [|k ks IH]; intros a; [reflexivity|]. cbn [monomial]. rewrite IH. f_equal. f_equal.
  cbn [exact st_e]. f_equal. f_equal. f_equal. cbn [Nat.pow].
  rewrite <- Nat.div_div by (try apply Nat.pow_nonzero; lia). f_equal.
  rewrite (Nat.mul_comm 7 i), Nat.div_add_l by lia. rewrite Nat.div_small by lia. lia.
Qed.

Definition m7 (c : R) (k : nat) : R := sumf 7 (fun j => w7 j * (c * node7 j) ^ k).
Lemma mom_exact_step D c k ks : mom (exact (S D) c) (k :: ks) = m7 c k * mom (exact D c) ks.
Proof.
  unfold mom. change (st_Q (exact (S D) c)) with (7 * 7 ^ D)%nat. rewrite sumf_block.
  change (st_Q (exact D c)) with (7 ^ D)%nat. rewrite <- sumf_scal. apply sumf_ext. intros i _.
  unfold m7. rewrite <- sumf_scal_r. apply sumf_ext. intros j Hj. cbn [monomial]. rewrite monomial_shift by assumption.
  cbn [exact st_w st_e wprod].
  replace ((7 * i + j) / 7)%nat with i by (rewrite (Nat.mul_comm 7 i), Nat.div_add_l, (Nat.div_small j 7) by lia; lia).
  replace ((7 * i + j) mod 7)%nat with j by (rewrite Nat.add_comm, (Nat.mul_comm 7 i), Nat.mod_add, Nat.mod_small by lia; reflexivity).
  replace ((7 * i + j) / 7 ^ 0)%nat with (7 * i + j)%nat by (rewrite Nat.pow_0_r, Nat.div_1_r; reflexivity).
  replace ((7 * i + j) mod 7)%nat with j by (rewrite Nat.add_comm, (Nat.mul_comm 7 i), Nat.mod_add, Nat.mod_small by lia; reflexivity).
  ring.
Qed.
Lemma m7_normal c k : (k <= 7)%nat -> m7 c k = IZR (normal_moment k) * c ^ k.
Proof.
  intros H. unfold m7. cbn [sumf w7 node7].
  do 8 (destruct k as [|k]; [cbn [normal_moment Z.of_nat Pos.of_succ_nat Pos.succ pow]; rewrite ?mult_IZR; lra|]). lia.
Qed.
Lemma mom_exact c : forall ks, Forall (fun k => (k <= 7)%nat) ks ->
  mom (exact (length ks) c) ks = IZR (fold_right Z.mul 1%Z (map normal_moment ks)) * c ^ sum_list ks.
Proof.
  induction 1 as [|k ks Hk _ IH].
  - unfold mom. cbn. ring.
  - cbn [length]. rewrite mom_exact_step, IH, m7_normal by assumption.
    cbn [map fold_right sum_list]. fold (sum_list ks). rewrite mult_IZR, pow_add. ring.
Qed.
Lemma normal_odd : forall k, Nat.odd k = true -> normal_moment k = 0%Z.
Proof.
  intros k. induction k as [k IH] using lt_wf_ind. intros H. destruct k as [|[|k]]; [discriminate|reflexivity|].
  cbn [normal_moment]. rewrite (IH k) by (lia || (rewrite <- H; unfold Nat.odd; reflexivity)). lia.
Qed.
Lemma prod_odd : forall ks, Nat.odd (sum_list ks) = true -> fold_right Z.mul 1%Z (map normal_moment ks) = 0%Z.
Proof.
  induction ks as [|k ks IH]; intros H; [discriminate|]. cbn [map fold_right sum_list] in *. fold (sum_list ks) in H.
  destruct (Nat.odd k) eqn:Ek; [rewrite (normal_odd k Ek); lia|].
  rewrite IH; [lia|]. rewrite Nat.odd_add, Ek in H. now rewrite xorb_false_l in H.
Qed.
Lemma sum_list_le : forall ks n, (sum_list ks <= n)%nat -> Forall (fun k => (k <= n)%nat) ks.
Proof.
  induction ks as [|k ks IH]; intros n H; constructor; cbn [sum_list fold_right] in H; fold (sum_list ks) in H; [lia|]. apply IH. lia.
Qed.
Lemma exact_isotropic D c : isotropic (exact D c) 7.
Proof.
  intros l Hl Hn. rewrite tmom_mom by assumption. cbn [exact st_D st_cs2] in *. rewrite <- (wick_gauss D) by assumption.
  pose proof (sum_counts D l Hl) as Hs. pose proof (mom_exact c (counts D l)) as H. rewrite counts_length in H.
  rewrite H by (apply sum_list_le; rewrite Hs; exact Hn). unfold gauss.
  destruct (Nat.odd (sum_list (counts D l))) eqn:Eo; [rewrite (prod_odd _ Eo); ring|]. f_equal.
  assert (E : Nat.even (sum_list (counts D l)) = true) by (rewrite <- Nat.negb_odd, Eo; reflexivity).
  apply Nat.even_spec in E. destruct E as [k E]. rewrite E, Nat.div2_double, pow_mult. f_equal. ring.
Qed.

(** ** Isotropy up to a tolerance *)
Definition near_iso (L : stencil) (n : nat) (tol : R) : Prop :=
  forall l, Forall (fun a => (a < st_D L)%nat) l -> (length l <= n)%nat ->
  Rabs (tmom L l - IZR (wick l) * st_cs2 L ^ Nat.div2 (length l)) <= tol * Rabs (st_cs L) ^ length l.

Lemma near_iso_unscale st s n tol : s <> 0 -> near_iso st n tol -> near_iso (unscale st s) n tol.
Proof.
  intros Hs H l Hl Hn. specialize (H l Hl Hn). rewrite tmom_unscale by assumption. cbn [unscale st_cs2 st_cs].
  assert (Hp : s ^ length l <> 0) by (apply pow_nonzero; assumption).
  assert (E : IZR (wick l) * (st_cs2 st / (s * s)) ^ Nat.div2 (length l) = IZR (wick l) * st_cs2 st ^ Nat.div2 (length l) / s ^ length l).
  { destruct (Nat.odd (length l)) eqn:Ho; [rewrite (wick_odd l Ho); unfold Rdiv; ring|].
    assert (Nat.even (length l) = true) by (rewrite <- Nat.negb_odd, Ho; reflexivity).
    apply Nat.even_spec in H0. destruct H0 as [k Hk]. rewrite Hk, Nat.div2_double, pow_mult.
    replace (s ^ 2) with (s * s) by ring. unfold Rdiv. rewrite Rpow_mult_distr, pow_inv. ring. }
  rewrite E. replace (tmom st l / s ^ length l - IZR (wick l) * st_cs2 st ^ Nat.div2 (length l) / s ^ length l)
    with ((tmom st l - IZR (wick l) * st_cs2 st ^ Nat.div2 (length l)) / s ^ length l) by (field; assumption).
  unfold Rdiv at 1. rewrite Rabs_mult, Rabs_inv.
  unfold Rdiv. rewrite Rabs_mult, Rabs_inv, Rpow_mult_distr, pow_inv, <- Rmult_assoc, (RPow_abs s).
  apply Rmult_le_compat_r; [|exact H]. left. apply Rinv_0_lt_compat. apply Rabs_pos_lt. assumption.
Qed.
Lemma near_iso_le L n m tol : near_iso L n tol -> (m <= n)%nat -> near_iso L m tol.
Proof. intros H Hm l Hl Hn. apply H; [assumption|lia]. Qed.

Lemma near_iso_mom st n tol : mom_ok st n tol -> near_iso st n tol.
Proof.
  intros H l Hl Hn. rewrite tmom_mom, <- (wick_gauss _ _ _ Hl) by assumption. rewrite <- (sum_counts _ l Hl).
  apply H; [apply counts_length|]. now rewrite sum_counts.
Qed.

Section Near.
  Variables (L : stencil) (n : nat) (tol c : R).
  Let D := st_D L.
  Let L0 := exact D c.
  Hypothesis Hc : 0 < c.
  Hypothesis Hcs : Rabs (st_cs L) = c.
  Hypothesis Hcs2 : st_cs2 L = c * c.
  Hypothesis Hn : (n <= 7)%nat.
  Hypothesis Hiso : near_iso L n tol.

  (** [p] on [L] and [p0] on the exact lattice are the same polynomial of degree [d], with coefficients of size [B]. *)
  Definition Appr (p p0 : nat -> R) (d : nat) (B : R) : Prop :=
    forall l, Forall (fun a => (a < D)%nat) l -> (d + length l <= n)%nat ->
    Rabs (Ex L (fun i => p i * eprod L i l) - Ex L0 (fun i => p0 i * eprod L0 i l)) <= tol * B * c ^ length l.

  Lemma tol_nonneg : 0 <= tol.
  Proof.
    pose proof (Hiso [] (Forall_nil _) (Nat.le_0_l _)) as H. cbn [length pow] in H. rewrite !Rmult_1_r in H.
    eapply Rle_trans; [apply Rabs_pos|exact H].
  Qed.
  Lemma appr_one : Appr (fun _ => 1) (fun _ => 1) 0 1.
  Proof.
    intros l Hl Hd. rewrite Rmult_1_r.
    rewrite (Ex_ext L _ (fun i => eprod L i l)) by (intros; ring). rewrite (Ex_ext L0 _ (fun i => eprod L0 i l)) by (intros; ring).
    rewrite !Ex_eprod. cbn [Nat.add] in Hd. unfold L0. rewrite (exact_isotropic D c l) by (assumption || lia).
    cbn [exact st_cs2]. rewrite <- Hcs2, <- Hcs. apply Hiso; [assumption|]. cbn in Hd. lia.
  Qed.
  Lemma appr_le p p0 d d' B B' : Appr p p0 d B -> (d <= d')%nat -> B <= B' -> Appr p p0 d' B'.
  Proof.
    intros H Hd HB l Hl Hn'. eapply Rle_trans; [apply (H l Hl); lia|].
    apply Rmult_le_compat_r; [apply pow_le; lra|]. apply Rmult_le_compat_l; [apply tol_nonneg|assumption].
  Qed.
  Lemma appr_ext p p0 q q0 d B : Appr p p0 d B -> (forall i, q i = p i) -> (forall i, q0 i = p0 i) -> Appr q q0 d B.
  Proof.
    intros H E E0 l Hl Hn'. rewrite (Ex_ext L _ (fun i => p i * eprod L i l)) by (intros; rewrite E; reflexivity).
    rewrite (Ex_ext L0 _ (fun i => p0 i * eprod L0 i l)) by (intros; rewrite E0; reflexivity). apply H; assumption.
  Qed.
  Lemma appr_plus p p0 q q0 d B B' : Appr p p0 d B -> Appr q q0 d B' -> Appr (fun i => p i + q i) (fun i => p0 i + q0 i) d (B + B').
  Proof.
    intros H H' l Hl Hn'. specialize (H l Hl Hn'). specialize (H' l Hl Hn').
    rewrite (Ex_ext L _ (fun i => p i * eprod L i l + q i * eprod L i l)) by (intros; ring).
    rewrite (Ex_ext L0 _ (fun i => p0 i * eprod L0 i l + q0 i * eprod L0 i l)) by (intros; ring).
    rewrite !Ex_plus.
    match goal with |- Rabs (?a + ?b - (?a' + ?b')) <= _ => replace (a + b - (a' + b')) with ((a - a') + (b - b')) by ring end.
    eapply Rle_trans; [apply Rabs_triang|]. lra.
  Qed.
  Lemma appr_scal x p p0 d B : Appr p p0 d B -> Appr (fun i => x * p i) (fun i => x * p0 i) d (Rabs x * B).
  Proof.
    intros H l Hl Hn'. specialize (H l Hl Hn').
    rewrite (Ex_ext L _ (fun i => x * (p i * eprod L i l))) by (intros; ring).
    rewrite (Ex_ext L0 _ (fun i => x * (p0 i * eprod L0 i l))) by (intros; ring).
    rewrite !Ex_scal, <- Rmult_minus_distr_l, Rabs_mult.
    replace (tol * (Rabs x * B) * c ^ length l) with (Rabs x * (tol * B * c ^ length l)) by ring.
    apply Rmult_le_compat_l; [apply Rabs_pos|exact H].
  Qed.
  Lemma appr_minus p p0 q q0 d B B' : Appr p p0 d B -> Appr q q0 d B' -> Appr (fun i => p i - q i) (fun i => p0 i - q0 i) d (B + B').
  Proof.
    intros H H'. apply (appr_scal (-1)) in H'. rewrite (Rabs_left (-1)) in H' by lra.
    eapply appr_ext; [eapply appr_le; [apply (appr_plus _ _ _ _ _ _ _ H H')|apply le_n|] | |]; intros; cbn; lra.
  Qed.
  Lemma appr_zero d : Appr (fun _ => 0) (fun _ => 0) d 0.
  Proof.
    intros l Hl Hn'. rewrite (Ex_ext L _ (fun i => 0 * 0)) by (intros; ring). rewrite (Ex_ext L0 _ (fun i => 0 * 0)) by (intros; ring).
    rewrite !Ex_scal, !Rmult_0_l, Rminus_0_r, Rabs_R0. lra.
  Qed.
  Lemma appr_const x d : Appr (fun _ => x) (fun _ => x) d (Rabs x).
  Proof.
    eapply appr_ext; [eapply appr_le; [apply (appr_scal x _ _ _ _ appr_one)|apply Nat.le_0_l|] | |]; intros; cbn; lra.
  Qed.
  Lemma appr_e a p p0 d B : (a < D)%nat -> Appr p p0 d B ->
    Appr (fun i => p i * st_e L i a) (fun i => p0 i * st_e L0 i a) (S d) (B * c).
  Proof.
    intros Ha H l Hl Hn'. specialize (H (a :: l) ltac:(constructor; assumption)). cbn [length] in H. specialize (H ltac:(lia)).
    rewrite (Ex_ext L _ (fun i => p i * eprod L i (a :: l))) by (intros; cbn [eprod]; ring).
    rewrite (Ex_ext L0 _ (fun i => p0 i * eprod L0 i (a :: l))) by (intros; cbn [eprod]; ring).
    eapply Rle_trans; [exact H|]. cbn [pow]. right. ring.
  Qed.
  Lemma appr_sumf m (p p0 : nat -> nat -> R) d (B : nat -> R) : (forall a, (a < m)%nat -> Appr (p a) (p0 a) d (B a)) ->
    Appr (fun i => sumf m (fun a => p a i)) (fun i => sumf m (fun a => p0 a i)) d (sumf m B).
  Proof.
    induction m as [|m IH]; intros H; [apply appr_zero|]. cbn [sumf]. apply appr_plus.
    - apply IH. intros. apply H. lia.
    - apply H. lia.
  Qed.
  Lemma appr_suml {A} (xs : list A) (p p0 : A -> nat -> R) d (B : A -> R) : Forall (fun a => Appr (p a) (p0 a) d (B a)) xs ->
    Appr (fun i => suml (fun a => p a i) xs) (fun i => suml (fun a => p0 a i) xs) d (suml B xs).
  Proof.
    induction 1 as [|a xs H _ IH]; [apply appr_zero|]. cbn [suml]. apply appr_plus; assumption.
  Qed.

  (** What it is for. *)
  Lemma appr_use p p0 d B l v : Appr p p0 d B -> Forall (fun a => (a < D)%nat) l -> (d + length l <= n)%nat ->
    Ex L0 (fun i => p0 i * eprod L0 i l) = v ->
    Rabs (Ex L (fun i => p i * eprod L i l) - v) <= tol * B * c ^ length l.
  Proof. intros H Hl Hn' <-. apply H; assumption. Qed.

  (** *** The polynomials of the equilibria *)
  Variable u : nat -> R.
  Let U := sumf D (fun a => Rabs (u a)) / c.
  Lemma U_nonneg : 0 <= U.
  Proof. unfold U. apply Rmult_le_pos; [apply sumf_nonneg; intros; apply Rabs_pos|left; apply Rinv_0_lt_compat; assumption]. Qed.

  Lemma appr_ue p p0 d B : Appr p p0 d B -> Appr (fun i => p i * ue_term L u i) (fun i => p0 i * ue_term L0 u i) (S d) (B * U).
  Proof.
    intros H.
    eapply appr_ext; [eapply appr_le; [apply (appr_sumf D (fun a i => u a / (c * c) * (p i * st_e L i a))
        (fun a i => u a / (c * c) * (p0 i * st_e L0 i a)) (S d) (fun a => Rabs (u a / (c * c)) * (B * c))) | apply le_n | ] | | ].
    - intros a Ha. apply appr_scal. apply appr_e; assumption.
    - right. unfold U. unfold Rdiv. rewrite (sumf_scal_r D (B * c) (fun a => Rabs (u a * / (c * c)))).
      rewrite (sumf_ext D _ (fun a => Rabs (u a) * / (c * c))).
      + rewrite sumf_scal_r. field. lra.
      + intros a _. rewrite Rabs_mult. f_equal. apply Rabs_right. apply Rle_ge. left. apply Rinv_0_lt_compat. nra.
    - intros i. unfold ue_term. fold D. rewrite Hcs2, <- sumf_scal. apply sumf_ext. intros a _. unfold Rdiv. ring.
    - intros i. unfold ue_term. change (st_D L0) with D. change (st_cs2 L0) with (c * c).
      rewrite <- sumf_scal. apply sumf_ext. intros a _. unfold Rdiv. ring.
  Qed.
  Lemma uu_same : uu_term L0 u = uu_term L u.
  Proof. unfold uu_term. rewrite Hcs2. reflexivity. Qed.
  Lemma uu_bound : Rabs (uu_term L u) <= U * U / 2.
  Proof.
    rewrite (uu_dot L u). fold D. rewrite Hcs2.
    replace (- dot D u u / (2 * (c * c))) with (- (dot D u u / (2 * (c * c)))) by (field; lra). rewrite Rabs_Ropp.
    assert (H0 : 0 <= dot D u u) by (apply sumf_nonneg; intros; nra).
    assert (H : dot D u u <= sumf D (fun a => Rabs (u a)) * sumf D (fun a => Rabs (u a))).
    { generalize D. intros m. induction m as [|m IH]; [cbn; lra|]. unfold dot in *. cbn [sumf].
      pose proof (sumf_nonneg m (fun a => Rabs (u a)) ltac:(intros; apply Rabs_pos)). pose proof (Rabs_pos (u m)).
      assert (u m * u m = Rabs (u m) * Rabs (u m)) by (rewrite <- Rabs_mult, Rabs_right; [reflexivity|apply Rle_ge; nra]). nra. }
    assert (Hcc : 0 < / (2 * (c * c))) by (apply Rinv_0_lt_compat; nra).
    rewrite Rabs_right by (apply Rle_ge, Rmult_le_pos; lra).
    unfold U. apply Rle_trans with ((sumf D (fun a => Rabs (u a)) * sumf D (fun a => Rabs (u a))) / (2 * (c * c))).
    - unfold Rdiv. apply Rmult_le_compat_r; lra.
    - right. field. lra.
  Qed.

  Lemma appr_poly2 A A' B C : Rabs A <= A' -> Appr (poly2 L u A B C) (poly2 L0 u A B C) 2 (A' + Rabs B * U + Rabs C * (U * U)).
  Proof.
    intros HA. pose proof (appr_ue _ _ _ _ appr_one) as H1. pose proof (appr_ue _ _ _ _ H1) as H2.
    eapply appr_ext; [eapply appr_le; [apply appr_plus; [apply appr_plus; [apply (appr_const A 2)|]|] | apply le_n | ] | | ].
    - apply (appr_scal B). eapply appr_le; [exact H1| lia | apply Rle_refl].
    - apply (appr_scal C). exact H2.
    - lra.
    - intros i. unfold poly2. ring.
    - intros i. unfold poly2. ring.
  Qed.

  Lemma delta_abs a b : Rabs (delta a b) <= 1.
  Proof. unfold delta. destruct (Nat.eqb a b); [rewrite Rabs_R1|rewrite Rabs_R0]; lra. Qed.
  Lemma delta_01 a b : 0 <= delta a b <= 1.
  Proof. unfold delta. destruct (Nat.eqb a b); lra. Qed.

  Lemma appr_tr : Appr (tr L) (tr L0) 2 (2 * INR D * (c * c)).
  Proof.
    unfold tr. fold D. change (st_D L0) with D. change (st_cs2 L0) with (c * c). rewrite Hcs2.
    eapply appr_le; [apply (appr_sumf D (fun a i => st_e L i a * st_e L i a - c * c)
      (fun a i => st_e L0 i a * st_e L0 i a - c * c) 2 (fun a => 1 * c * c + Rabs (c * c))) | apply le_n |].
    - intros a Ha. apply appr_minus; [|apply appr_const].
      eapply appr_ext; [apply (appr_e a _ _ _ _ Ha (appr_e a _ _ _ _ Ha appr_one)) | |]; intros; cbn; ring.
    - rewrite sumf_const, Rabs_right by (apply Rle_ge; nra). right. ring.
  Qed.

  Lemma appr_e1 a : (a < D)%nat -> Appr (fun i => st_e L i a) (fun i => st_e L0 i a) 1 c.
  Proof.
    intros Ha. eapply appr_ext; [eapply appr_le; [apply (appr_e a _ _ _ _ Ha appr_one)|apply le_n|] | |]; intros; cbn; lra.
  Qed.
  Lemma appr_H3 a b d : (a < D)%nat -> (b < D)%nat -> (d < D)%nat -> Appr (fun i => H3 L i a b d) (fun i => H3 L0 i a b d) 3 (4 * (c * c * c)).
  Proof.
    intros Ha Hb Hd.
    assert (K : forall x y z, (x < D)%nat -> Appr (fun i => st_e L i x * delta y z) (fun i => st_e L0 i x * delta y z) 3 c).
    { intros x y z Hx. eapply appr_ext; [eapply appr_le; [apply (appr_scal (delta y z) _ _ _ _ (appr_e1 x Hx)) | lia | ] | |].
      - pose proof (delta_abs y z). pose proof (Rabs_pos (delta y z)). nra.
      - intros. cbn. ring.
      - intros. cbn. ring. }
    eapply appr_ext; [eapply appr_le; [apply appr_minus;
      [apply (appr_e d _ _ _ _ Hd (appr_e b _ _ _ _ Hb (appr_e1 a Ha)))
      |apply (appr_scal (c * c)); apply appr_plus; [apply appr_plus|]; [apply (K a b d Ha)|apply (K b a d Hb)|apply (K d a b Hd)]] | apply le_n | ] | | ].
    - rewrite Rabs_right by (apply Rle_ge; nra). right. ring.
    - intros i. unfold H3. rewrite Hcs2. reflexivity.
    - intros i. unfold H3. reflexivity.
  Qed.
  Lemma appr_H4 a b d g : (a < D)%nat -> (b < D)%nat -> (d < D)%nat -> (g < D)%nat ->
    Appr (fun i => H4 L i a b d g) (fun i => H4 L0 i a b d g) 4 (10 * (c * c * c * c)).
  Proof.
    intros Ha Hb Hd Hg.
    assert (K : forall x x' y z, (x < D)%nat -> (x' < D)%nat ->
      Appr (fun i => st_e L i x * st_e L i x' * delta y z) (fun i => st_e L0 i x * st_e L0 i x' * delta y z) 4 (c * c)).
    { intros x x' y z Hx Hx'. eapply appr_ext; [eapply appr_le; [apply (appr_scal (delta y z) _ _ _ _ (appr_e x' _ _ _ _ Hx' (appr_e1 x Hx))) | lia | ] | |].
      - pose proof (delta_abs y z). pose proof (Rabs_pos (delta y z)). assert (0 < c * c) by nra. nra.
      - intros. cbn. ring.
      - intros. cbn. ring. }
    assert (K0 : forall x, Rabs x <= 3 -> Appr (fun i => c * c * (c * c) * x) (fun i => c * c * (c * c) * x) 4 (3 * (c * c * c * c))).
    { intros x Hx. eapply appr_le; [apply appr_const|apply le_n|]. rewrite Rabs_mult, (Rabs_right (c * c * (c * c))) by (apply Rle_ge; nra).
      assert (0 < c * c * (c * c)) by (apply Rmult_lt_0_compat; nra). nra. }
    eapply appr_ext; [eapply appr_le; [apply appr_plus; [apply appr_minus;
      [apply (appr_e g _ _ _ _ Hg (appr_e d _ _ _ _ Hd (appr_e b _ _ _ _ Hb (appr_e1 a Ha))))
      |apply (appr_scal (c * c)); apply appr_plus; [apply appr_plus; [apply appr_plus; [apply appr_plus; [apply appr_plus|]|]|]|];
        [apply (K a b d g Ha Hb)|apply (K a d b g Ha Hd)|apply (K a g b d Ha Hg)|apply (K b d a g Hb Hd)|apply (K b g a d Hb Hg)|apply (K d g a b Hd Hg)]]
      | apply (K0 (delta a b * delta d g + delta a d * delta b g + delta a g * delta b d)) ] | apply le_n | ] | | ].
    - pose proof (delta_01 a b). pose proof (delta_01 d g). pose proof (delta_01 a d). pose proof (delta_01 b g).
      pose proof (delta_01 a g). pose proof (delta_01 b d). rewrite Rabs_right; [nra|]. apply Rle_ge. nra.
    - rewrite Rabs_right by (apply Rle_ge; nra). right. ring.
    - intros i. unfold H4. rewrite Hcs2. ring.
    - intros i. unfold H4. cbn [L0 exact st_cs2]. ring.
  Qed.

  (** *** The quartic polynomial *)
  Variable T : R.
  Hypothesis HD : D = 2%nat \/ D = 3%nat.
  Let th := Rabs (T - 1).

  Lemma tri3 x y z : Rabs (x + y + z) <= Rabs x + Rabs y + Rabs z.
  Proof. eapply Rle_trans; [apply Rabs_triang|]. pose proof (Rabs_triang x y). lra. Qed.
  Definition n3 (a b d : nat) : R :=
    Rabs (u a) * Rabs (u b) * Rabs (u d) + c * c * th * (Rabs (u a) * delta b d + Rabs (u b) * delta a d + Rabs (u d) * delta a b).
  Definition n4 (a b d g : nat) : R :=
    Rabs (u a) * Rabs (u b) * Rabs (u d) * Rabs (u g)
    + c * c * th * (Rabs (u a) * Rabs (u b) * delta d g + Rabs (u a) * Rabs (u d) * delta b g + Rabs (u a) * Rabs (u g) * delta b d
                  + Rabs (u b) * Rabs (u d) * delta a g + Rabs (u b) * Rabs (u g) * delta a d + Rabs (u d) * Rabs (u g) * delta a b)
    + c * c * th * (c * c * th) * (delta a b * delta d g + delta a d * delta b g + delta a g * delta b d).
  Lemma abs_delta x y : Rabs (delta x y) = delta x y.
  Proof. apply Rabs_right, Rle_ge, delta_01. Qed.
  Lemma abs_c : Rabs c = c.
  Proof. apply Rabs_right. lra. Qed.
  Lemma cth : 0 <= c * c * th.
  Proof. apply Rmult_le_pos; [nra|apply Rabs_pos]. Qed.
  Lemma c3_abs a b d : Rabs (c3 L T u a b d) <= n3 a b d.
  Proof.
    unfold c3, n3. rewrite Hcs2. eapply Rle_trans; [apply Rabs_triang|]. rewrite !Rabs_mult, abs_c. fold th.
    apply Rplus_le_compat_l. apply Rmult_le_compat_l; [apply cth|].
    eapply Rle_trans; [apply tri3|]. rewrite !Rabs_mult, !abs_delta. lra.
  Qed.
  Lemma c4_abs a b d g : Rabs (c4 L T u a b d g) <= n4 a b d g.
  Proof.
    unfold c4, n4. rewrite Hcs2. eapply Rle_trans; [apply tri3|]. rewrite !Rabs_mult, abs_c. fold th.
    apply Rplus_le_compat.
    - apply Rplus_le_compat_l. apply Rmult_le_compat_l; [apply cth|].
      eapply Rle_trans; [apply Rabs_triang|]. eapply Rle_trans; [apply Rplus_le_compat_r, Rabs_triang|].
      eapply Rle_trans; [apply Rplus_le_compat_r, Rplus_le_compat_r, Rabs_triang|].
      eapply Rle_trans; [apply Rplus_le_compat_r, Rplus_le_compat_r, Rplus_le_compat_r, tri3|].
      rewrite !Rabs_mult, !abs_delta. lra.
    - right. f_equal. rewrite Rabs_right; [reflexivity|]. apply Rle_ge.
      pose proof (delta_01 a b). pose proof (delta_01 d g). pose proof (delta_01 a d). pose proof (delta_01 b g).
      pose proof (delta_01 a g). pose proof (delta_01 b d). nra.
  Qed.

  Let V := sumf D (fun a => Rabs (u a)).
  Definition fst4 (t : R * nat * nat * nat) : R := let '(x, _, _, _) := t in x.
  Definition fst5 (t : R * nat * nat * nat * nat) : R := let '(x, _, _, _, _) := t in x.
  Ltac nb := repeat match goal with
    | |- context [Rabs (?k * c3 L T u ?a ?b ?d)] => rewrite (Rabs_mult k), (Rabs_right k) by lra
    | |- context [Rabs (?k * c4 L T u ?a ?b ?d ?g)] => rewrite (Rabs_mult k), (Rabs_right k) by lra end;
    repeat match goal with
    | |- context [Rabs (c3 L T u ?a ?b ?d)] => let H := fresh in let x := fresh in pose proof (c3_abs a b d) as H; set (x := Rabs (c3 L T u a b d)) in *; clearbody x
    | |- context [Rabs (c4 L T u ?a ?b ?d ?g)] => let H := fresh in let x := fresh in pose proof (c4_abs a b d g) as H; set (x := Rabs (c4 L T u a b d g)) in *; clearbody x end.
  Lemma l3_norm : suml (fun t => Rabs (fst4 t)) (l3 L T u) <= V * V * V + 3 * INR D * (c * c * th) * V.
  Proof.
    unfold l3, V. fold D. destruct HD as [E|E]; rewrite E; cbn [Nat.eqb]; unfold l3_3, l3_2, mk3; cbn [app suml fst4 sumf INR];
    nb; unfold n3, delta in *; cbn [Nat.eqb] in *; generalize dependent (c * c * th); intros; lra.
  Qed.
  Lemma l4_norm : suml (fun t => Rabs (fst5 t)) (l4 L T u) <=
    V * V * V * V + 6 * INR D * (c * c * th) * (V * V) + 3 * (INR D * INR D) * (c * c * th) * (c * c * th).
  Proof.
    unfold l4, V. fold D. destruct HD as [E|E]; rewrite E; cbn [Nat.eqb]; unfold l4_3, l4_2, mk4; cbn [app suml fst5 sumf INR];
    nb; unfold n4, delta in *; cbn [Nat.eqb] in *; generalize dependent (c * c * th); intros y; intros.
    - lra.
    - lra.
  Qed.

  Lemma l3_same : l3 L0 T u = l3 L T u.
  Proof. unfold l3, l3_3, l3_2, c3. rewrite Hcs2. reflexivity. Qed.
  Lemma l4_same : l4 L0 T u = l4 L T u.
  Proof. unfold l4, l4_3, l4_2, c4. rewrite Hcs2. reflexivity. Qed.
  Lemma appr_P3 : Appr (P3 L (l3 L T u)) (P3 L0 (l3 L0 T u)) 4 (4 * (c * c * c) * (V * V * V + 3 * INR D * (c * c * th) * V)).
  Proof.
    rewrite l3_same. eapply appr_le.
    - apply (appr_suml (l3 L T u) (fun t i => let '(x, a, b, d) := t in x * H3 L i a b d)
        (fun t i => let '(x, a, b, d) := t in x * H3 L0 i a b d) 4 (fun t => Rabs (fst4 t) * (4 * (c * c * c)))).
      pose proof (l3_in L HD T u) as H. eapply Forall_impl; [|exact H]. intros [[[x a] b] d] (Ha & Hb & Hd). cbn [fst4].
      apply appr_scal. eapply appr_le; [apply (appr_H3 a b d Ha Hb Hd)|lia|apply Rle_refl].
    - apply le_n.
    - pose proof l3_norm as H.
      assert (E : suml (fun t => Rabs (fst4 t) * (4 * (c * c * c))) (l3 L T u) = suml (fun t => Rabs (fst4 t)) (l3 L T u) * (4 * (c * c * c))).
      { clear H. induction (l3 L T u) as [|t ts IH]; cbn [suml]; [ring|]. rewrite IH. ring. }
      rewrite E, Rmult_comm. apply Rmult_le_compat_l; [|exact H]. assert (0 < c * c * c) by (repeat apply Rmult_lt_0_compat; lra). lra.
  Qed.
  Lemma appr_P4 : Appr (P4 L (l4 L T u)) (P4 L0 (l4 L0 T u)) 4 (10 * (c * c * c * c) *
    (V * V * V * V + 6 * INR D * (c * c * th) * (V * V) + 3 * (INR D * INR D) * (c * c * th) * (c * c * th))).
  Proof.
    rewrite l4_same. eapply appr_le.
    - apply (appr_suml (l4 L T u) (fun t i => let '(x, a, b, d, g) := t in x * H4 L i a b d g)
        (fun t i => let '(x, a, b, d, g) := t in x * H4 L0 i a b d g) 4 (fun t => Rabs (fst5 t) * (10 * (c * c * c * c)))).
      pose proof (l4_in L HD T u) as H. eapply Forall_impl; [|exact H]. intros [[[[x a] b] d] g] (Ha & Hb & Hd & Hg). cbn [fst5].
      apply appr_scal. apply (appr_H4 a b d g Ha Hb Hd Hg).
    - apply le_n.
    - pose proof l4_norm as H.
      assert (E : suml (fun t => Rabs (fst5 t) * (10 * (c * c * c * c))) (l4 L T u) = suml (fun t => Rabs (fst5 t)) (l4 L T u) * (10 * (c * c * c * c))).
      { clear H. induction (l4 L T u) as [|t ts IH]; cbn [suml]; [ring|]. rewrite IH. ring. }
      rewrite E, Rmult_comm. apply Rmult_le_compat_l; [|exact H]. assert (0 < c * c * c * c) by (repeat apply Rmult_lt_0_compat; lra). lra.
  Qed.
  Lemma appr_quartic : Appr (quartic_poly L T u) (quartic_poly L0 T u) 4 ((1 + U + INR D * th) ^ 4).
  Proof.
    assert (HU := U_nonneg). assert (Ht : 0 <= th) by apply Rabs_pos. assert (HDn : 0 <= INR D) by apply pos_INR.
    assert (EV : V = U * c) by (unfold V, U; field; lra).
    assert (H1 : Rabs (1 + uu_term L u) <= 1 + U * U / 2).
    { eapply Rle_trans; [apply Rabs_triang|]. rewrite Rabs_R1. pose proof uu_bound. lra. }
    pose proof (appr_poly2 _ _ 1 (1/2) H1) as A2.
    assert (I3 : 0 < / (6 * (c * c) * (c * c) * (c * c))) by (apply Rinv_0_lt_compat; do 3 (apply Rmult_lt_0_compat; [|nra]); lra).
    assert (I4 : 0 < / (24 * (c * c) * (c * c) * (c * c) * (c * c))) by (apply Rinv_0_lt_compat; do 4 (apply Rmult_lt_0_compat; [|nra]); lra).
    eapply appr_ext; [eapply appr_le; [apply appr_plus; [apply appr_plus; [apply appr_plus; [eapply (appr_le _ _ 2 4); [exact A2|lia|apply Rle_refl]
        |apply (appr_scal ((T - 1) / (2 * (c * c)))); eapply appr_le; [apply appr_tr|lia|apply Rle_refl]]
      |apply (appr_scal (/ (6 * (c * c) * (c * c) * (c * c)))); apply appr_P3]
      |apply (appr_scal (/ (24 * (c * c) * (c * c) * (c * c) * (c * c)))); apply appr_P4] | apply le_n | ] | | ].
    - rewrite (Rabs_right (/ (6 * (c * c) * (c * c) * (c * c)))), (Rabs_right (/ (24 * (c * c) * (c * c) * (c * c) * (c * c)))) by lra.
      rewrite Rabs_R1, (Rabs_right (1/2)) by lra.
      replace (Rabs ((T - 1) / (2 * (c * c)))) with (th / (2 * (c * c))).
      2:{ unfold Rdiv. rewrite Rabs_mult. fold th. f_equal. symmetry. apply Rabs_right, Rle_ge. left. apply Rinv_0_lt_compat. nra. }
      rewrite EV.
      replace (th / (2 * (c * c)) * (2 * INR D * (c * c))) with (INR D * th) by (field; lra).
      replace (/ (6 * (c * c) * (c * c) * (c * c)) * (4 * (c * c * c) * (U * c * (U * c) * (U * c) + 3 * INR D * (c * c * th) * (U * c))))
        with (2/3 * (U * U * U + 3 * (INR D * th) * U)) by (field; lra).
      replace (/ (24 * (c * c) * (c * c) * (c * c) * (c * c)) * (10 * (c * c * c * c) * (U * c * (U * c) * (U * c) * (U * c)
          + 6 * INR D * (c * c * th) * (U * c * (U * c)) + 3 * (INR D * INR D) * (c * c * th) * (c * c * th))))
        with (5/12 * (U * U * U * U + 6 * (INR D * th) * (U * U) + 3 * ((INR D * th) * (INR D * th)))) by (field; lra).
      assert (Hx : 0 <= INR D * th) by (apply Rmult_le_pos; assumption). set (x := INR D * th) in *. clearbody x.
      clearbody U. clear - HU Hx.
      assert (0 <= U * U) by nra. assert (0 <= U * x) by nra. assert (0 <= x * x) by nra.
      assert (0 <= U * U * U) by (apply Rmult_le_pos; nra). assert (0 <= U * U * x) by (apply Rmult_le_pos; nra).
      assert (0 <= U * x * x) by (apply Rmult_le_pos; nra). assert (0 <= x * x * x) by (apply Rmult_le_pos; nra).
      assert (0 <= U * U * U * U) by (apply Rmult_le_pos; nra). assert (0 <= U * U * U * x) by (apply Rmult_le_pos; nra).
      assert (0 <= U * U * x * x) by (apply Rmult_le_pos; nra). assert (0 <= U * x * x * x) by (apply Rmult_le_pos; nra).
      assert (0 <= x * x * x * x) by (apply Rmult_le_pos; nra). cbn [pow]. lra.
    - intros i. unfold quartic_poly. rewrite Hcs2. reflexivity.
    - intros i. unfold quartic_poly. rewrite uu_same. reflexivity.
  Qed.

  Let M := (1 + U + INR D * th) ^ 4.
  Lemma L0_cs2 : st_cs2 L0 <> 0.
  Proof. cbn. nra. Qed.
  Lemma near_quartic0 : (4 <= n)%nat -> Rabs (Ex L (quartic_poly L T u) - 1) <= tol * M.
  Proof.
    intros H4. pose proof (appr_use _ _ _ _ [] 1 appr_quartic (Forall_nil _) ltac:(cbn; lia)) as H. fold M in H. clearbody M. cbn [length pow eprod] in H.
    rewrite Rmult_1_r in H. rewrite (Ex_ext L _ (quartic_poly L T u)) in H by (intros; ring). apply H.
    rewrite (Ex_ext L0 _ (quartic_poly L0 T u)) by (intros; ring).
    apply (quartic_mom0 L0 7 (exact_isotropic D c) L0_cs2 HD). lia.
  Qed.
  Lemma near_quartic1 a : (5 <= n)%nat -> (a < D)%nat -> Rabs (Ex L (fun i => quartic_poly L T u i * st_e L i a) - u a) <= tol * M * c.
  Proof.
    intros H4 Ha. pose proof (appr_use _ _ _ _ [a] (u a) appr_quartic ltac:(repeat constructor; assumption) ltac:(cbn; lia)) as H. fold M in H. clearbody M. cbn [length pow eprod] in H.
    rewrite (Ex_ext L _ (fun i => quartic_poly L T u i * st_e L i a)) in H by (intros; ring). rewrite Rmult_1_r in H. apply H.
    rewrite (Ex_ext L0 _ (fun i => quartic_poly L0 T u i * st_e L0 i a)) by (intros; ring).
    apply (quartic_mom1 L0 7 (exact_isotropic D c) L0_cs2 HD); [lia|assumption].
  Qed.
  Lemma near_quartic2 a b : (6 <= n)%nat -> (a < D)%nat -> (b < D)%nat ->
    Rabs (Ex L (fun i => quartic_poly L T u i * st_e L i a * st_e L i b) - (T * (c * c) * delta a b + u a * u b)) <= tol * M * (c * c).
  Proof.
    intros H4 Ha Hb. pose proof (appr_use _ _ _ _ [a; b] (T * (c * c) * delta a b + u a * u b) appr_quartic ltac:(repeat constructor; assumption) ltac:(cbn; lia)) as H.
    fold M in H. clearbody M. cbn [length pow eprod] in H.
    rewrite (Ex_ext L _ (fun i => quartic_poly L T u i * st_e L i a * st_e L i b)) in H by (intros; ring). rewrite Rmult_1_r in H. apply H.
    rewrite (Ex_ext L0 _ (fun i => quartic_poly L0 T u i * st_e L0 i a * st_e L0 i b)) by (intros; ring).
    apply (quartic_mom2 L0 7 (exact_isotropic D c) L0_cs2 HD); [lia|assumption|assumption].
  Qed.
  Lemma near_quartic3 a b d : (7 <= n)%nat -> (a < D)%nat -> (b < D)%nat -> (d < D)%nat ->
    Rabs (Ex L (fun i => quartic_poly L T u i * st_e L i a * st_e L i b * st_e L i d)
      - (u a * u b * u d + T * (c * c) * (u a * delta b d + u b * delta a d + u d * delta a b))) <= tol * M * (c * c * c).
  Proof.
    intros H4 Ha Hb Hd. pose proof (appr_use _ _ _ _ [a; b; d] (u a * u b * u d + T * (c * c) * (u a * delta b d + u b * delta a d + u d * delta a b))
      appr_quartic ltac:(repeat constructor; assumption) ltac:(cbn; lia)) as H.
    fold M in H. clearbody M. cbn [length pow eprod] in H.
    rewrite (Ex_ext L _ (fun i => quartic_poly L T u i * st_e L i a * st_e L i b * st_e L i d)) in H by (intros; ring).
    replace (c * (c * (c * 1))) with (c * c * c) in H by ring. apply H.
    rewrite (Ex_ext L0 _ (fun i => quartic_poly L0 T u i * st_e L0 i a * st_e L0 i b * st_e L0 i d)) by (intros; ring).
    apply (quartic_mom3 L0 7 (exact_isotropic D c) L0_cs2 HD); [lia|assumption|assumption|assumption].
  Qed.

  (** *** Second-order polynomials *)
  Variables (A A' B C : R).
  Hypothesis HA : Rabs A <= A'.
  Let N := A' + Rabs B * U + Rabs C * (U * U).
  Lemma near_poly0 : (2 <= n)%nat -> Rabs (Ex L (poly2 L u A B C) - Ex L0 (poly2 L0 u A B C)) <= tol * N.
  Proof.
    intros H4. pose proof (appr_poly2 A A' B C HA [] (Forall_nil _) ltac:(cbn; lia)) as H. cbn [length pow eprod] in H. rewrite Rmult_1_r in H.
    rewrite (Ex_ext L _ (poly2 L u A B C)) in H by (intros; ring). rewrite (Ex_ext L0 _ (poly2 L0 u A B C)) in H by (intros; ring). exact H.
  Qed.
  Lemma near_poly1 a : (3 <= n)%nat -> (a < D)%nat ->
    Rabs (Ex L (fun i => poly2 L u A B C i * st_e L i a) - Ex L0 (fun i => poly2 L0 u A B C i * st_e L0 i a)) <= tol * N * c.
  Proof.
    intros H4 Ha. pose proof (appr_poly2 A A' B C HA [a] ltac:(repeat constructor; assumption) ltac:(cbn; lia)) as H. cbn [length pow eprod] in H. rewrite Rmult_1_r in H.
    rewrite (Ex_ext L _ (fun i => poly2 L u A B C i * st_e L i a)) in H by (intros; ring).
    rewrite (Ex_ext L0 _ (fun i => poly2 L0 u A B C i * st_e L0 i a)) in H by (intros; ring). exact H.
  Qed.
  Lemma near_poly2 a b : (4 <= n)%nat -> (a < D)%nat -> (b < D)%nat ->
    Rabs (Ex L (fun i => poly2 L u A B C i * st_e L i a * st_e L i b) - Ex L0 (fun i => poly2 L0 u A B C i * st_e L0 i a * st_e L0 i b)) <= tol * N * (c * c).
  Proof.
    intros H4 Ha Hb. pose proof (appr_poly2 A A' B C HA [a; b] ltac:(repeat constructor; assumption) ltac:(cbn; lia)) as H. cbn [length pow eprod] in H. rewrite Rmult_1_r in H.
    rewrite (Ex_ext L _ (fun i => poly2 L u A B C i * st_e L i a * st_e L i b)) in H by (intros; ring).
    rewrite (Ex_ext L0 _ (fun i => poly2 L0 u A B C i * st_e L0 i a * st_e L0 i b)) in H by (intros; ring). exact H.
  Qed.
  Lemma near_poly3 a b d : (5 <= n)%nat -> (a < D)%nat -> (b < D)%nat -> (d < D)%nat ->
    Rabs (Ex L (fun i => poly2 L u A B C i * st_e L i a * st_e L i b * st_e L i d)
        - Ex L0 (fun i => poly2 L0 u A B C i * st_e L0 i a * st_e L0 i b * st_e L0 i d)) <= tol * N * (c * c * c).
  Proof.
    intros H4 Ha Hb Hd. pose proof (appr_poly2 A A' B C HA [a; b; d] ltac:(repeat constructor; assumption) ltac:(cbn; lia)) as H. cbn [length pow eprod] in H.
    replace (c * (c * (c * 1))) with (c * c * c) in H by ring.
    rewrite (Ex_ext L _ (fun i => poly2 L u A B C i * st_e L i a * st_e L i b * st_e L i d)) in H by (intros; ring).
    rewrite (Ex_ext L0 _ (fun i => poly2 L0 u A B C i * st_e L0 i a * st_e L0 i b * st_e L0 i d)) in H by (intros; ring). exact H.
  Qed.
End Near.
