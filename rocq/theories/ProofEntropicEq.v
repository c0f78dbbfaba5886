(** Equilibria of the entropic classes: distance, fixed points, positivity. *)
From Coq Require Import QArith Qreals.
From Verif Require Import Prelude StencilData StabilizerData ModelStencils SpecStencils SpecCollision BigSum ProofStencils ProofEqMoments
  ModelConfigNames ModelEquilibria ModelCollision ProofCollideNode ModelOldCollision SpecOldCollision ProofOldCollision ProofOldNode ProofOldNode2 ModelEntropic SpecEntropic ProofKBC ProofKBC9
  ProofKBCEq ProofKBCNode ProofKBCFix ProofStabilizer ProofStabilizer2 ProofStabilizer3 ProofEst ProofEntropicAll.
Local Open Scope R_scope.

Lemma quadratic_eq c t s rho v i g : c <> KBCStandard -> entropic_eq c t s rho v i = Ok g -> 0 < rho /\ g = old_eq MRTStandard (stencil_of t s) rho v i.
Proof.
  intros Hc H. unfold entropic_eq in H. cbv zeta in H. destruct (eq_asserts rho v) eqn:A; [|discriminate].
  split; [unfold eq_asserts in A; destruct (Rlt_dec 0 rho); [assumption|discriminate]|]. destruct c; [congruence| |]; congruence.
Qed.

(** On D2Q9 the collision uses the equilibrium of the class. *)
Lemma kbc_feq_eq c s rho v i g : c <> EntropicStabilized -> s <> 0 -> (i < 9)%nat -> entropic_eq c Stencil_D2Q9 s rho v i = Ok g -> g = kbc_feq c s rho v i.
Proof.
  intros Hc Hs Hi H. destruct c; [| |congruence]; cbn [kbc_feq].
  - destruct (standard_eq_inv s rho v Hs i g Hi H) as (_ & _ & _ & E). exact E.
  - destruct (quadratic_eq KBCCentral Stencil_D2Q9 s rho v i g ltac:(discriminate) H) as [_ ->].
    symmetry. exact (central_feq (old_new Stencil_D2Q9 s 1 1) Hs rho v i Hi).
Qed.
Lemma kbc_feq_ext c s rho v v' i : (forall a, (a < 2)%nat -> v a = v' a) -> kbc_feq c s rho v i = kbc_feq c s rho v' i.
Proof. intros E. unfold kbc_feq. rewrite (E 0%nat), (E 1%nat) by lia. reflexivity. Qed.

Lemma eq_holds c t s rho v g : s <> 0 -> (c = KBCStandard -> t = Stencil_D2Q9) -> closed_form t = true ->
  (forall i, (i < st_Q (stencil_of t s))%nat -> entropic_eq c t s rho v i = Ok (g i)) -> holds (stencil_of t s) rho v g.
Proof.
  intros Hs Ht Ct H. set (st := stencil_of t s) in *.
  assert (Q : c = KBCStandard \/ c <> KBCStandard) by (destruct c; (left; reflexivity) || (right; discriminate)).
  destruct Q as [-> | Hc].
  - specialize (Ht eq_refl). subst t. unfold st in *. cbn [stencil_of] in *.
    assert (E : forall i, (i < st_Q (D2Q9 s))%nat -> g i = entropic_D2Q9 rho (v 0%nat / s) (v 1%nat / s) i)
      by (intros i Hi; destruct (standard_eq_inv s rho v Hs i _ Hi (H i Hi)) as (_ & _ & _ & E); exact E).
    destruct (standard_eq_inv s rho v Hs 0%nat _ ltac:(lia) (H 0%nat ltac:(cbn; lia))) as (_ & Lx & Ly & _).
    split; [rewrite (mass_ext _ _ _ E); apply entropic_mass; lra|].
    intros a Ha. rewrite (momentum_ext _ _ _ a E), entropic_momentum by (try exact Ha; lra). rewrite (v9 s v Hs a Ha). reflexivity.
  - assert (E : forall i, (i < st_Q st)%nat -> g i = old_eq MRTStandard st rho v i) by (intros i Hi; apply (quadratic_eq c t s rho v i (g i) Hc (H i Hi))).
    split; [rewrite (mass_ext _ _ _ E); apply (old_eq_mass t s Ct Hs MRTStandard)|].
    intros a Ha. rewrite (momentum_ext _ _ _ a E). apply (old_eq_momentum t s Ct Hs MRTStandard). exact Ha.
Qed.

(** The product form is positive. *)
Lemma standard_positive s rho v i g : s <> 0 -> (i < 9)%nat -> entropic_eq KBCStandard Stencil_D2Q9 s rho v i = Ok g -> 0 < g.
Proof. intros Hs Hi H. destruct (standard_eq_inv s rho v Hs i g Hi H) as (Hr & Lx & Ly & ->). apply entropic_pos; assumption. Qed.
(** It exists exactly below the lattice speed. *)
Lemma standard_exists s rho v i : 0 < rho -> s <> 0 -> v 0%nat < 10^15 -> v 1%nat < 10^15 -> (i < 9)%nat ->
  (exists g, entropic_eq KBCStandard Stencil_D2Q9 s rho v i = Ok g) <-> v 0%nat * v 0%nat < s * s /\ v 1%nat * v 1%nat < s * s.
Proof.
  intros Hr Hs H0 H1 Hi.
  assert (P : 0 < s * s) by (destruct (Rdichotomy _ _ Hs); nra).
  assert (T : forall a, a * a < s * s <-> a / s * (a / s) < 1).
  { intros a. assert (E : a * a = (a / s * (a / s)) * (s * s)) by (field; exact Hs). rewrite E. split; intros L; nra. }
  split.
  - intros [g H]. destruct (standard_eq_inv s rho v Hs i g Hi H) as (_ & Lx & Ly & _). rewrite !T. split; assumption.
  - intros [Lx Ly]. rewrite T in Lx, Ly. apply standard_eq_runs; assumption.
Qed.
(** The quadratic form is positive for slow flow. *)
Lemma quadratic_positive t s rho v i g : closed_form t = true -> s <> 0 -> (i < st_Q (stencil_of t s))%nat ->
  sumf (st_D (stencil_of t s)) (fun a => v a * v a) < st_cs2 (stencil_of t s) ->
  (0 < st_w (stencil_of t s) i) -> entropic_eq KBCCentral t s rho v i = Ok g -> 0 < g.
Proof.
  intros Ct Hs Hi L W H. destruct (quadratic_eq KBCCentral t s rho v i g ltac:(discriminate) H) as [Hr ->].
  rewrite (old_eq_standard t s Ct MRTStandard rho v i I). unfold BGKEquilibrium_generic.
  assert (C : 0 < st_cs2 (stencil_of t s)) by (apply cs2_pos; exact Hs).
  apply Rmult_lt_0_compat; [apply Rmult_lt_0_compat; assumption|].
  assert (U : - (1/2) < uu_term (stencil_of t s) v).
  { unfold uu_term. rewrite (sumf_ext _ _ (fun a => - (/ (2 * st_cs2 (stencil_of t s))) * (v a * v a))) by (intros; unfold Rdiv; ring).
    rewrite sumf_scal. apply (Rmult_lt_reg_r (2 * st_cs2 (stencil_of t s))); [lra|]. field_simplify; lra. }
  set (x := ue_term _ _ _). assert (0 <= (x + 1) * (x + 1)) by apply Rle_0_sqr. lra.
Qed.

Lemma distance_ext st g g' f f' : (forall i, (i < st_Q st)%nat -> g i = g' i) -> (forall i, (i < st_Q st)%nat -> f i = f' i) -> distance st g f = distance st g' f'.
Proof. intros E F. apply sumf_ext. intros i Hi. rewrite (E i Hi), (F i Hi). reflexivity. Qed.

Section Optimal.
  Variables (c : entropic_class) (m : old_model) (f u g : nat -> R) (o : node_out).
  Hypothesis Hc : kbc9 c m.
  Hypothesis Hs : om_s m <> 0.
  Hypothesis Ht : om_tau m + 1/2 <> 0.
  Let st := D2Q9 (om_s m).
  Hypothesis Hrun : entropic_node c m false f u = Ok o.
  Hypothesis Hg : forall i, (i < 9)%nat -> entropic_eq c Stencil_D2Q9 (om_s m) (mass st f) (velocity st f) i = Ok (g i).
  Hypothesis Hpos : forall i, (i < 9)%nat -> 0 < g i.

  Lemma g_feq i : (i < 9)%nat -> g i = kbc_feq c (om_s m) (mass st f) (no_u o) i.
  Proof.
    intros Hi. rewrite (kbc_feq_eq c (om_s m) _ _ i (g i) (proj1 Hc) Hs Hi (Hg i Hi)). apply kbc_feq_ext. intros a Ha. symmetry.
    exact (kbc9_velocity c m f u o Hc Hs Hrun a Ha).
  Qed.
  Lemma kbc9_contracts : distance st g (no_f o) <= (1 - 1 / (om_tau m + 1/2)) * (1 - 1 / (om_tau m + 1/2)) * distance st g f.
  Proof.
    destruct (kbc9_inv c m false f u o Hc Hs Hrun) as [R _]. fold st in R.
    rewrite (distance_ext st g _ (no_f o) (no_f o) g_feq (fun i _ => eq_refl)), (distance_ext st g _ f f g_feq (fun i _ => eq_refl)).
    apply (result_contracts _ _ _ _ _ _ R); [|exact Ht]. intros i Hi. rewrite <- g_feq by exact Hi. apply Hpos. exact Hi.
  Qed.
  Lemma kbc9_optimal : exists d t0, no_moments st d /\
    (forall i, (i < 9)%nat -> bgk_state (om_tau m) f g i = no_f o i + t0 * d i) /\
    (t0 = 0 /\ sumf 9 (fun i => d i * d i / g i) < 1 / 10^16 \/
     forall t, distance st g (no_f o) <= distance st g (fun i => no_f o i + t * d i)).
  Proof.
    destruct (kbc9_inv c m false f u o Hc Hs Hrun) as [R _]. fold st in R. assert (V := kbc9_velocity c m f u o Hc Hs Hrun).
    destruct (result_optimal _ _ _ _ _ _ R V) as (d & t0 & N & B & C); [intros i Hi; rewrite <- g_feq by exact Hi; apply Hpos; exact Hi|exact Ht|tauto|].
    exists d, t0. split; [exact N|]. split; [intros i Hi; rewrite <- (B i); unfold bgk_state; rewrite (g_feq i Hi); reflexivity|].
    destruct C as [[C1 C2]|C]; [left; split; [exact C1|]|right].
    - rewrite (sumf_ext 9 _ (fun i => d i * d i / kbc_feq c (om_s m) (mass st f) (no_u o) i)) by (intros i Hi; rewrite (g_feq i Hi); reflexivity). exact C2.
    - intros t. rewrite (distance_ext st g _ (no_f o) (no_f o) g_feq (fun i _ => eq_refl)).
      rewrite (distance_ext st g _ (fun i => no_f o i + t * d i) (fun i => no_f o i + t * d i) g_feq (fun i _ => eq_refl)). apply C.
  Qed.
End Optimal.

(** ** Fixed points *)
Lemma shear9_ext rho f g : (forall i, (i < 9)%nat -> f i = g i) -> forall i, shear_D2Q9 rho f i = shear_D2Q9 rho g i.
Proof. intros E i. unfold shear_D2Q9. cbv zeta. rewrite !E by lia. reflexivity. Qed.
Lemma shearc_ext s rho ux uy f g : (forall i, (i < 9)%nat -> f i = g i) -> forall i, shear_central s rho ux uy f i = shear_central s rho ux uy g i.
Proof.
  intros E i. assert (M : forall p q, central_moment s ux uy f p q = central_moment s ux uy g p q) by (intros p q; apply sumf_ext; intros j Hj; rewrite (E j Hj); reflexivity).
  unfold shear_central. cbv zeta. rewrite !M. reflexivity.
Qed.

Section Fixed9.
  Variables (c : entropic_class) (m : old_model) (rho : R) (v f u : nat -> R).
  Hypothesis Hc : kbc9 c m.
  Hypothesis Hs : om_s m <> 0.
  Hypothesis Hrho : 1 / 10^10 <= rho.
  Let st := D2Q9 (om_s m).
  Hypothesis Hf : forall i, (i < 9)%nat -> entropic_eq c Stencil_D2Q9 (om_s m) rho v i = Ok (f i).
  Hypothesis Hn : forall i, (i < 9)%nat -> f i <> 0.

  Lemma kbc9_fixed : exists o, entropic_node c m false f u = Ok o /\ same_populations st f (no_f o) /\ no_rho o = rho /\ forall a, (a < 2)%nat -> no_u o a = v a.
  Proof.
    assert (Hd : holds st rho v f).
    { apply (eq_holds c Stencil_D2Q9 (om_s m) rho v f Hs); [reflexivity|reflexivity|exact Hf]. }
    destruct Hd as [M J]. assert (Hr : mass st f <> 0) by lra.
    set (w := raw_D2Q9 (om_s m) (mass st f) f).
    assert (V : forall a, (a < 2)%nat -> w a = v a).
    { intros a Ha. unfold w. rewrite (raw9_ok _ _ _ _ Hr Ha). fold st. rewrite (J a Ha), M. field. lra. }
    assert (E : forall i, (i < 9)%nat -> kbc_feq c (om_s m) (mass st f) w i = f i).
    { intros i Hi. rewrite M, (kbc_feq_eq c (om_s m) rho v i (f i) (proj1 Hc) Hs Hi (Hf i Hi)). apply kbc_feq_ext. exact V. }
    assert (X : exists o, entropic_node c m false f u = Ok o).
    { unfold entropic_node. destruct Hc as [Hc' Ht]. rewrite Ht.
      assert (Kr : forall k shear, exists f', kbc_relax 9 (om_tau m) k shear f (kbc_feq c (om_s m) (mass st f) w) = Ok f')
        by (intros; apply relax_runs; intros i Hi; rewrite (E i Hi); apply Hn; exact Hi).
      assert (Kp : 1 / 10^10 <= mass st f) by lra.
      destruct c; [| |congruence]; unfold node_kbc_D2Q9, node_kbc_central; cbv zeta; change (sumf 9 f) with (mass st f); fold w; rewrite (checked_ok _ _ Kp);
      match goal with |- context [kbc_relax 9 _ ?k ?sh _ _] => destruct (Kr k sh) as [f' F] end; cbn [kbc_feq] in F; rewrite F; eexists; reflexivity. }
    destruct X as [o Ho]. exists o. split; [exact Ho|].
    assert (U := kbc9_velocity c m f u o Hc Hs Ho). destruct (kbc9_inv c m false f u o Hc Hs Ho) as [R Uw]. fold st w in R, U, Uw.
    split; [|split].
    - assert (Z := Ho). unfold entropic_node in Z. destruct Hc as [Hc' Ht]. rewrite Ht in Z.
      destruct c; [| |congruence]; unfold node_kbc_D2Q9, node_kbc_central in Z; cbv zeta in Z; change (sumf 9 f) with (mass st f) in Z; fold w in Z;
      apply checked_inv in Z; destruct Z as [_ Z]; cbn [kbc_feq] in E;
      (destruct (kbc_relax _ _ _ _ _ _) as [f'| |] eqn:K; try discriminate; cbn [obind] in Z; injection Z as <-; cbn [no_f]).
      + intros i Hi. apply (relax_fixed _ _ _ _ _ _ _ (fun i Hi => eq_sym (E i Hi)) (shear9_ext _ _ _ (fun i Hi => eq_sym (E i Hi))) K). exact Hi.
      + intros i Hi. apply (relax_fixed _ _ _ _ _ _ _ (fun i Hi => eq_sym (E i Hi)) (shearc_ext _ _ _ _ _ _ (fun i Hi => eq_sym (E i Hi))) K). exact Hi.
    - rewrite (kr_rho _ _ _ _ _ _ R). exact M.
    - intros a Ha. rewrite Uw. apply V. exact Ha.
  Qed.
End Fixed9.

(** ** Momentum flux of the product form *)
Lemma flux_diff s rho v a : s <> 0 -> 0 <= rho ->
  0 <= standard_flux (D2Q9 s) rho v a a - entropic_flux s rho v a a <= 3/4 * rho * (v a)^4 / (s * s).
Proof.
  intros Hs Hr. unfold standard_flux, entropic_flux. rewrite Nat.eqb_refl. unfold delta. rewrite Nat.eqb_refl. cbn [D2Q9 st_cs2].
  set (x := v a / s). assert (E : v a = s * x) by (unfold x; field; exact Hs). rewrite E. change (sqrt (1 + 3 * (x * x))) with (fS x).
  assert (Q := fS_sq x). assert (P := fS_pos x). assert (W : 0 <= x * x) by apply Rle_0_sqr.
  assert (P1 : 1 <= fS x) by nra.
  replace (rho * (s * s / 3 * 1 + s * x * (s * x)) - rho * (s * s) * (2 * fS x - 1) / 3) with (rho * (s * s) * ((2/3) * (1 + 3/2 * (x * x) - fS x))) by field.
  replace (3/4 * rho * (s * x)^4 / (s * s)) with (rho * (s * s) * (3/4 * (x * x * (x * x)))) by (field; exact Hs).
  assert (B : 0 <= rho * (s * s)) by (apply Rmult_le_pos; [exact Hr|apply Rle_0_sqr]).
  split; [apply Rmult_le_pos; [exact B|]|apply Rmult_le_compat_l; [exact B|]]; nra.
Qed.
Lemma flux_off s rho v a b : a <> b -> entropic_flux s rho v a b = standard_flux (D2Q9 s) rho v a b.
Proof.
  intros H. unfold entropic_flux, standard_flux, delta. destruct (Nat.eqb_spec a b); [contradiction|]. ring.
Qed.
