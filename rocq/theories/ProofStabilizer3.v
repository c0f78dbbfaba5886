(** The pseudo-entropic stabilizer: minimality, projection, equilibria. *)
From Coq Require Import QArith Qreals.
From Verif Require Import Prelude StencilData StabilizerData ModelStencils SpecStencils SpecCollision BigSum ProofStencils ProofEqMoments
  ModelConfigNames ModelEquilibria ModelCollision ModelOldCollision SpecOldCollision ProofOldCollision ProofOldNode ProofOldNode2 ModelEntropic SpecEntropic ProofKBC ProofKBC9 ProofStabilizer ProofStabilizer2.
Local Open Scope R_scope.

Definition hat (k : stab_kind) (f : nat -> R) (i : nat) : R := sumf (stab_size k) (fun j => kernel k i j * f j).
Lemma stabilize_hat k f i : (i < stab_size k)%nat -> stabilize k f i = w3 k i * hat k f i.
Proof.
  intros Hi. unfold stabilize, hat. rewrite <- sumf_scal. apply sumf_ext. intros j Hj. rewrite entry_kernel by assumption. ring.
Qed.

(** The result in terms of the moments. *)
Definition quad (k : stab_kind) (f : nat -> R) (i : nat) : R :=
  c3 k i 0 * c3 k i 0 * S2 k f 0 0 + c3 k i 1 * c3 k i 1 * S2 k f 1 1 + c3 k i 2 * c3 k i 2 * S2 k f 2 2
  + 2 * (c3 k i 0 * c3 k i 1 * S2 k f 0 1 + c3 k i 0 * c3 k i 2 * S2 k f 0 2 + c3 k i 1 * c3 k i 2 * S2 k f 1 2).
Definition lin (k : stab_kind) (f : nat -> R) (i : nat) : R := c3 k i 0 * S1 k f 0 + c3 k i 1 * S1 k f 1 + c3 k i 2 * S1 k f 2.
Definition tr (k : stab_kind) (f : nat -> R) : R := S2 k f 0 0 + S2 k f 1 1 + S2 k f 2 2.
Definition dimR (k : stab_kind) : R := match k with Stab_D3Q19 => 3 | _ => 2 end.

Lemma hat_moments k f i : hat k f i = S0 k f + 3 * lin k f i + 9/2 * (quad k f i
  + match k with
    | Stab_D2Q9_with_e => - (1/2) * dot3 k i i * tr k f
    | _ => - (1/3) * dot3 k i i * S0 k f - 1/3 * tr k f + dimR k / 9 * S0 k f
    end).
Proof.
  unfold hat, lin, quad, tr, S0, S1, S2, dot3.
  destruct k; cbn [dimR]; rewrite <- ?sumf_scal, <- ?sumf_plus; rewrite <- ?sumf_scal, <- ?sumf_plus; rewrite <- ?sumf_scal, <- ?sumf_plus, <- ?sumf_minus;
  rewrite <- ?sumf_scal, <- ?sumf_plus, <- ?sumf_minus; rewrite <- ?sumf_scal, <- ?sumf_plus; rewrite <- ?sumf_scal, <- ?sumf_plus;
  apply sumf_ext; intros j _; unfold kernel, dot3; field.
Qed.

  (** what the stabilizer keeps *)
Definition kept (k : stab_kind) (s : R) (f g : nat -> R) : Prop :=
  match k with Stab_D2Q9_with_e => same_deviatoric (stab_stencil k s) f g | _ => same_moments (stab_stencil k s) f g end.

  Lemma s_mass k s f (st := stab_stencil k s) : mass st (stabilize k f) = mass st f.
  Proof. unfold st. rewrite !mass_S. apply stab_S0. Qed.
  Lemma s_momentum k s f a (st := stab_stencil k s) : (a < st_D st)%nat -> momentum st (stabilize k f) a = momentum st f a.
  Proof. unfold st. rewrite stab_D. intros Ha. rewrite !momentum_S, stab_S1 by exact Ha. reflexivity. Qed.
  Lemma s_moment2 k s f a b (st := stab_stencil k s) : k <> Stab_D2Q9_with_e -> (a < st_D st)%nat -> (b < st_D st)%nat -> moment2 st (stabilize k f) a b = moment2 st f a b.
  Proof. unfold st. rewrite stab_D. intros Hk Ha Hb. rewrite !moment2_S, stab_S2 by assumption. reflexivity. Qed.

  Lemma stab_kept k s f : kept k s f (stabilize k f).
  Proof.
    unfold kept. destruct k.
    - split; [apply s_mass|split; [apply s_momentum|intros; apply s_moment2; congruence]].
    - split; [apply s_mass|]. split; [apply s_momentum|].
      intros a b Ha Hb. unfold deviatoric. cbn [stab_stencil D2Q9 st_D sumf] in *.
      change (D2Q9 s) with (stab_stencil Stab_D2Q9_with_e s). rewrite !moment2_S.
      assert (E := stab_dev f a b Ha Hb). cbv zeta in E. unfold delta. destruct (Nat.eqb a b); cbn [INR];
      [|replace (0 / (1 + 1)) with 0 by field; rewrite !Rmult_0_l, !Rminus_0_r; rewrite !Rminus_0_r in E; rewrite E; reflexivity].
      set (k := Stab_D2Q9_with_e) in *.
      transitivity (s * s * (S2 k (stabilize k f) a b - 1/2 * (S2 k (stabilize k f) 0 0 + S2 k (stabilize k f) 1 1))); [field|]. rewrite E. field.
    - split; [apply s_mass|split; [apply s_momentum|intros; apply s_moment2; congruence]].
  Qed.

  (** it vanishes on what carries nothing of that *)
  Lemma kept_hat k s f g : s <> 0 -> kept k s f g -> forall i, (i < stab_size k)%nat -> hat k g i = hat k f i.
  Proof.
    intros Hs H i Hi. rewrite !hat_moments. unfold quad, lin, tr.
    assert (Hss : s * s <> 0) by (apply Rmult_integral_contrapositive_currified; exact Hs).
    unfold kept in H. destruct k.
    - destruct H as (M & J & P). rewrite !mass_S in M.
      assert (J' : forall a, (a < 2)%nat -> S1 Stab_D2Q9 g a = S1 Stab_D2Q9 f a) by (intros a Ha; specialize (J a Ha); rewrite !momentum_S in J; apply Rmult_eq_reg_l in J; assumption).
      assert (P' : forall a b, (a < 2)%nat -> (b < 2)%nat -> S2 Stab_D2Q9 g a b = S2 Stab_D2Q9 f a b) by (intros a b Ha Hb; specialize (P a b Ha Hb); rewrite !moment2_S in P; apply Rmult_eq_reg_l in P; assumption).
      assert (C : forall i, c3 Stab_D2Q9 i 2 = 0) by (intros; apply c3_two).
      assert (Z : forall h, S2 Stab_D2Q9 h 2 2 = 0) by (intros h; apply sumf_zero; intros j _; rewrite C; ring).
      rewrite !Z, !C, M, !J', !P' by lia. ring.
    - destruct H as (M & J & P). rewrite !mass_S in M. set (k := Stab_D2Q9_with_e) in *.
      assert (J' : forall a, (a < 2)%nat -> S1 k g a = S1 k f a) by (intros a Ha; specialize (J a Ha); rewrite !momentum_S in J; apply Rmult_eq_reg_l in J; assumption).
      assert (C : forall i, c3 k i 2 = 0) by (intros; apply c3_two).
      assert (Z : forall h, S2 k h 2 2 = 0) by (intros h; apply sumf_zero; intros j _; rewrite C; ring).
      assert (P0 := P 0%nat 0%nat Nat.lt_0_2 Nat.lt_0_2). assert (P1 := P 0%nat 1%nat Nat.lt_0_2 Nat.lt_1_2).
      unfold deviatoric in P0, P1. cbn [stab_stencil D2Q9 st_D sumf] in P0, P1. cbn [k] in P0, P1.
      change (stab_stencil k s) with (D2Q9 s) in *. change (D2Q9 s) with (stab_stencil k s) in *.
      rewrite !moment2_S in P0, P1. change (delta 0 0) with 1 in P0. change (delta 0 1) with 0 in P1. cbn [st_D stab_stencil k D2Q9 sumf INR] in P0, P1.
      change (D2Q9 s) with (stab_stencil k s) in P0, P1. rewrite ?moment2_S in P0, P1.
      assert (Q1 : S2 k g 0 1 = S2 k f 0 1).
      { apply (Rmult_eq_reg_l (s * s)); [|exact Hss]. lra. }
      assert (Q0 : S2 k g 0 0 - S2 k g 1 1 = S2 k f 0 0 - S2 k f 1 1).
      { apply (Rmult_eq_reg_l (s * s)); [|exact Hss]. lra. }
      unfold dot3. rewrite !Z, !C, M, !J', Q1 by lia.
      replace (S2 k g 0 0) with (S2 k f 0 0 - S2 k f 1 1 + S2 k g 1 1) by lra. field.
    - destruct H as (M & J & P). rewrite !mass_S in M. set (k := Stab_D3Q19) in *.
      assert (J' : forall a, (a < 3)%nat -> S1 k g a = S1 k f a) by (intros a Ha; specialize (J a Ha); rewrite !momentum_S in J; apply Rmult_eq_reg_l in J; assumption).
      assert (P' : forall a b, (a < 3)%nat -> (b < 3)%nat -> S2 k g a b = S2 k f a b) by (intros a b Ha Hb; specialize (P a b Ha Hb); rewrite !moment2_S in P; apply Rmult_eq_reg_l in P; assumption).
      rewrite M, !J', !P' by lia. reflexivity.
  Qed.
Section Spec.
  Variables (k : stab_kind) (s : R).
  Hypothesis Hs : s <> 0.
  Let st := stab_stencil k s.
  Lemma kept_stab f g : kept k s f g -> forall i, (i < stab_size k)%nat -> stabilize k g i = stabilize k f i.
  Proof. intros H i Hi. rewrite !stabilize_hat by exact Hi. rewrite (kept_hat k s f g Hs H i Hi). reflexivity. Qed.
  Lemma stab_twice f i : (i < stab_size k)%nat -> stabilize k (stabilize k f) i = stabilize k f i.
  Proof. apply kept_stab, stab_kept. Qed.

  Lemma w3_pos i : (i < stab_size k)%nat -> 0 < w3 k i.
  Proof.
    intros Hi. unfold w3. destruct k; cbn [stab_size wtQ] in *;
    [do 9 (destruct i as [|i]; [unfold wtbl; cbn; unfold Q2R; cbn; lra|]); lia|do 9 (destruct i as [|i]; [unfold wtbl; cbn; unfold Q2R; cbn; lra|]); lia|
     do 19 (destruct i as [|i]; [unfold wtbl; cbn; unfold Q2R; cbn; lra|]); lia].
  Qed.

  Let Q := stab_size k.
  Lemma hat_swap f d : sumf Q (fun i => hat k f i * d i) = sumf Q (fun j => hat k d j * f j).
  Proof.
    unfold hat. rewrite (sumf_ext Q _ (fun i => sumf Q (fun j => kernel k i j * f j * d i))) by (intros; rewrite sumf_scal_r; reflexivity).
    rewrite sumf_swap. apply sumf_ext. intros j _. rewrite <- sumf_scal_r. apply sumf_ext. intros i _. rewrite kernel_sym. ring.
  Qed.
  Lemma hat_minus f g i : hat k (fun j => f j - g j) i = hat k f i - hat k g i.
  Proof. unfold hat. rewrite <- sumf_minus. apply sumf_ext. intros; ring. Qed.

  Lemma pythagoras f g : kept k s f g -> pseudo_entropy st g = pseudo_entropy st (stabilize k f) + pseudo_entropy st (fun i => g i - stabilize k f i).
  Proof.
    intros H. unfold pseudo_entropy, st. rewrite stab_Q. fold Q.
    set (d := fun i => g i - stabilize k f i).
    assert (O : sumf Q (fun i => stabilize k f i * d i / w3 k i) = 0).
    { rewrite (sumf_ext Q _ (fun i => hat k f i * d i)).
      2:{ intros i Hi. rewrite stabilize_hat by exact Hi. field. apply Rgt_not_eq, w3_pos. exact Hi. }
      rewrite hat_swap. apply sumf_zero. intros j Hj. unfold d. rewrite hat_minus, (kept_hat k s f g Hs H j Hj), (kept_hat k s f (stabilize k f) Hs (stab_kept k s f) j Hj). ring. }
    transitivity (sumf Q (fun i => stabilize k f i * stabilize k f i / w3 k i) + sumf Q (fun i => d i * d i / w3 k i) + 2 * sumf Q (fun i => stabilize k f i * d i / w3 k i)).
    - rewrite <- sumf_scal, <- !sumf_plus. apply sumf_ext. intros i Hi. unfold st. rewrite stab_w. unfold d. field. apply Rgt_not_eq, w3_pos. exact Hi.
    - rewrite O, Rmult_0_r, Rplus_0_r. f_equal; apply sumf_ext; intros i Hi; unfold st; rewrite stab_w; reflexivity.
  Qed.
  Lemma pe_nonneg d : 0 <= pseudo_entropy st d.
  Proof.
    unfold pseudo_entropy, st. rewrite stab_Q. apply sumf_nonneg. intros i Hi. rewrite stab_w. unfold Rdiv.
    apply Rmult_le_pos; [apply Rle_0_sqr|]. apply Rlt_le, Rinv_0_lt_compat, w3_pos. exact Hi.
  Qed.
  Lemma stab_minimal f g : kept k s f g -> pseudo_entropy st (stabilize k f) <= pseudo_entropy st g /\
    (pseudo_entropy st g = pseudo_entropy st (stabilize k f) -> same_populations st g (stabilize k f)).
  Proof.
    intros H. assert (P := pythagoras f g H). assert (N := pe_nonneg (fun i => g i - stabilize k f i)). split; [lra|].
    intros E. assert (Z : pseudo_entropy st (fun i => g i - stabilize k f i) = 0) by lra.
    unfold pseudo_entropy, st in Z. rewrite stab_Q in Z. intros i Hi. unfold st in Hi. rewrite stab_Q in Hi.
    assert (NN : forall j, (j < stab_size k)%nat -> 0 <= (g j - stabilize k f j) * (g j - stabilize k f j) / st_w (stab_stencil k s) j).
    { intros j Hj. rewrite stab_w. unfold Rdiv. apply Rmult_le_pos; [apply Rle_0_sqr|]. apply Rlt_le, Rinv_0_lt_compat, w3_pos. exact Hj. }
    assert (Zi := sumf_nonneg_zero _ _ NN Z i Hi). cbv beta in Zi. rewrite stab_w in Zi.
    assert (W := w3_pos i Hi). assert (D : (g i - stabilize k f i) * (g i - stabilize k f i) = 0).
    { apply (Rmult_eq_reg_r (/ w3 k i)); [|apply Rinv_neq_0_compat; lra]. unfold Rdiv in Zi. lra. }
    apply Rmult_integral in D. lra.
  Qed.
End Spec.

(** ** Equilibria *)
Lemma stab_equilibrium k s rho u i : s <> 0 -> k <> Stab_D2Q9_with_e -> (i < stab_size k)%nat ->
  stabilize k (old_eq BGKStandard (stab_stencil k s) rho u) i = old_eq BGKStandard (stab_stencil k s) rho u i.
Proof.
  intros Hs Hk Hi. rewrite stabilize_hat by exact Hi. set (f := old_eq BGKStandard (stab_stencil k s) rho u).
  assert (T : exists t, stab_stencil k s = stencil_of t s /\ closed_form t = true) by (destruct k; [exists Stencil_D2Q9|congruence|exists Stencil_D3Q19]; split; reflexivity).
  destruct T as (t & Et & Ct).
  assert (M : S0 k f = rho). { rewrite <- (mass_S k s). unfold f. rewrite Et. apply (old_eq_mass t s Ct Hs BGKStandard). }
  assert (J : forall a, (a < stab_dim k)%nat -> S1 k f a = rho * u a / s).
  { intros a Ha. apply (Rmult_eq_reg_l s); [|exact Hs]. rewrite <- (momentum_S k s). unfold f. rewrite <- (stab_D k s) in Ha. rewrite Et in Ha |- *.
    rewrite (old_eq_momentum t s Ct Hs BGKStandard) by exact Ha. field. exact Hs. }
  assert (P : forall a b, (a < stab_dim k)%nat -> (b < stab_dim k)%nat -> S2 k f a b = rho * (1/3 * delta a b + u a * u b / (s * s))).
  { intros a b Ha Hb. apply (Rmult_eq_reg_l (s * s)); [|apply Rmult_integral_contrapositive_currified; exact Hs]. rewrite <- (moment2_S k s). unfold f.
    assert (Ha' : (a < st_D (stencil_of t s))%nat) by (rewrite <- Et, stab_D; exact Ha). assert (Hb' : (b < st_D (stencil_of t s))%nat) by (rewrite <- Et, stab_D; exact Hb).
    assert (Cs : st_cs2 (stencil_of t s) = s * s / 3) by (rewrite <- Et; destruct k; reflexivity).
    rewrite Et, (eq_stress BGKStandard t s rho u a b Ct Hs I Ha' Hb'), Cs. field. exact Hs. }
  rewrite hat_moments, M. change (f i) with (old_eq BGKStandard (stab_stencil k s) rho u i). clearbody f.
  rewrite Et, (old_eq_standard t s Ct BGKStandard rho u i I), <- Et. unfold quad, lin, tr, BGKEquilibrium_generic, ue_term, uu_term. cbv zeta.
  destruct k; [|congruence|]; cbn [dimR stab_stencil st_D st_cs2 D2Q9 D3Q19 sumf stab_dim] in *; rewrite ?(stab_w Stab_D2Q9 s), ?(stab_w Stab_D3Q19 s).
  - assert (C : forall i, c3 Stab_D2Q9 i 2 = 0) by (intros; apply c3_two).
    assert (Z : S2 Stab_D2Q9 f 2 2 = 0) by (apply sumf_zero; intros j _; rewrite C; ring).
    rewrite Z, !J, !P by lia. unfold dot3. rewrite !C. unfold delta. cbn [Nat.eqb].
    change (D2Q9 s) with (stab_stencil Stab_D2Q9 s). rewrite !(stab_e Stab_D2Q9).
    field. exact Hs.
  - rewrite !J, !P by lia. unfold dot3. unfold delta. cbn [Nat.eqb].
    change (D3Q19 s) with (stab_stencil Stab_D3Q19 s). rewrite !(stab_e Stab_D3Q19). field. exact Hs.
Qed.
