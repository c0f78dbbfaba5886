(** The EntropicStabilized collision. *)
From Coq Require Import QArith Qreals.
From Verif Require Import Prelude StencilData StabilizerData ModelStencils SpecStencils SpecCollision BigSum ProofStencils ProofEqMoments
  ModelConfigNames ModelEquilibria ModelCollision ModelOldCollision SpecOldCollision ProofOldCollision ProofOldNode ProofOldNode2 ModelEntropic SpecEntropic ProofKBC ProofKBC9
  ProofStabilizer ProofStabilizer2 ProofStabilizer3.
Local Open Scope R_scope.

Lemma est_feq_eq t s rho v i : closed_form t = true -> est_feq (stencil_of t s) rho v i = old_eq BGKStandard (stencil_of t s) rho v i.
Proof. intros Ht. rewrite (old_eq_standard t s Ht BGKStandard rho v i I). reflexivity. Qed.

Definition mirror (f feq : nat -> R) (i : nat) : R := f i - 1 / (1/2) * (f i - feq i).

(** What the node does: one free factor. *)
Lemma est_inv m init f u o : node_est m init f u = Ok o ->
  let st := stencil_of (om_t m) (om_s m) in
  let feq := est_feq st (mass st f) (no_u o) in
  exists k w2, est_kind (om_t m) = Some k /\ no_rho o = mass st f /\ 1 / 10^12 <= mass st f /\
    no_u o = (if init then u else fun a => momentum st f a / mass st f) /\
    (forall i, no_f o i = feq i + (1 / (om_tau m + 1/2) - 1) * (1 + w2) * (stabilize k (mirror f feq) i - feq i)) /\
    (above (st_Q st) (stabilize k (mirror f feq)) && above (st_Q st) (mirror f feq) && above (st_Q st) feq && above (st_Q st) f = false -> w2 = 0).
Proof.
  unfold node_est. cbv zeta. set (st := stencil_of _ _). intros H. destruct (est_kind (om_t m)) as [k|]; [|discriminate].
  change (sumf (st_Q st) f) with (mass st f) in H. destruct (Rlt_dec (mass st f) (1 / 10^12)) as [|Hp]; [discriminate|].
  set (v := if init then u else _) in H.
  destruct (collideOne _ _ _ _ _ _) as [f'| |] eqn:E; try discriminate. cbn [obind] in H. injection H as <-. cbn [no_u no_rho no_f].
  unfold collideOne in E. cbv zeta in E. fold (mirror f (est_feq st (mass st f) v)) in E. set (feq := est_feq st (mass st f) v) in *.
  destruct (_ && _ && _ && _) eqn:C in E.
  - destruct (est_omega2 _ _ _ _ _ _) as [w2| |]; try discriminate. cbn [obind] in E. injection E as <-.
    exists k, w2. split; [reflexivity|]. split; [reflexivity|]. split; [lra|]. split; [reflexivity|]. split; [intros i; ring|]. intros C'. rewrite C in C'. discriminate.
  - injection E as <-. exists k, 0. split; [reflexivity|]. split; [reflexivity|]. split; [lra|]. split; [reflexivity|]. split; [intros i; ring|]. reflexivity.
Qed.

Lemma est_kinds t k : est_kind t = Some k -> k <> Stab_D2Q9_with_e /\ closed_form t = true /\ forall s, stencil_of t s = stab_stencil k s.
Proof. destruct t; cbn [est_kind]; intros H; try discriminate; injection H as <-; (split; [discriminate|split; reflexivity]). Qed.

(** A linear moment kept by the stabilizer. *)
Lemma sum_relaxed Q (f f' feq reg phi : nat -> R) r : (forall i, f' i = feq i + r * (reg i - feq i)) ->
  sumf Q (fun i => reg i * phi i) = sumf Q (fun i => mirror f feq i * phi i) ->
  sumf Q (fun i => f' i * phi i) = sumf Q (fun i => feq i * phi i) - r * (sumf Q (fun i => f i * phi i) - sumf Q (fun i => feq i * phi i)).
Proof.
  intros E K. rewrite (sumf_ext Q _ (fun i => feq i * phi i + r * (reg i * phi i - feq i * phi i))) by (intros; rewrite E; ring).
  rewrite sumf_plus, sumf_scal, sumf_minus, K.
  rewrite (sumf_ext Q (fun i => mirror f feq i * phi i) (fun i => 2 * (feq i * phi i) - f i * phi i)) by (intros; unfold mirror; field).
  rewrite sumf_minus, sumf_scal. ring.
Qed.

Section Result.
  Variables (m : old_model) (init : bool) (f u : nat -> R) (o : node_out).
  Hypothesis Hs : om_s m <> 0.
  Hypothesis Hrun : node_est m init f u = Ok o.
  Let st := stencil_of (om_t m) (om_s m).
  Let feq := est_feq st (mass st f) (no_u o).

  Lemma est_result : closed_form (om_t m) = true /\ no_rho o = mass st f /\ 1 / 10^12 <= mass st f /\
    (if init then no_u o = u else forall a, no_u o a = momentum st f a / mass st f) /\
    exists w2, (forall k, est_kind (om_t m) = Some k -> above (st_Q st) (stabilize k (mirror f feq)) && above (st_Q st) (mirror f feq) && above (st_Q st) feq && above (st_Q st) f = false -> w2 = 0) /\
      mass st (no_f o) = mass st f /\
      (forall a, (a < st_D st)%nat -> momentum st (no_f o) a = mass st f * no_u o a - (1 / (om_tau m + 1/2) - 1) * (1 + w2) * (momentum st f a - mass st f * no_u o a)) /\
      (forall a b, (a < st_D st)%nat -> (b < st_D st)%nat ->
         moment2 st (no_f o) a b = standard_flux st (mass st f) (no_u o) a b - (1 / (om_tau m + 1/2) - 1) * (1 + w2) * (moment2 st f a b - standard_flux st (mass st f) (no_u o) a b)).
  Proof.
    destruct (est_inv m init f u o Hrun) as (k & w2 & Hk & Hr & Hp & Hu & E & Z). fold st in Hr, Hp, Hu, E, Z. fold feq in E, Z.
    destruct (est_kinds _ _ Hk) as (Ke & Ct & Es).
    split; [exact Ct|]. split; [exact Hr|]. split; [exact Hp|]. split; [rewrite Hu; destruct init; reflexivity|].
    exists w2. split; [intros k' Hk'; assert (k' = k) by congruence; subst k'; exact Z|].
    assert (F : forall i, feq i = old_eq BGKStandard st (mass st f) (no_u o) i) by (intros i; apply est_feq_eq; exact Ct).
    assert (M : mass st feq = mass st f).
    { rewrite (mass_ext st _ _ (fun i _ => F i)). apply (old_eq_mass (om_t m) (om_s m) Ct Hs BGKStandard). }
    assert (J : forall a, (a < st_D st)%nat -> momentum st feq a = mass st f * no_u o a).
    { intros a Ha. rewrite (momentum_ext st _ _ a (fun i _ => F i)). apply (old_eq_momentum (om_t m) (om_s m) Ct Hs BGKStandard). exact Ha. }
    assert (P : forall a b, (a < st_D st)%nat -> (b < st_D st)%nat -> moment2 st feq a b = standard_flux st (mass st f) (no_u o) a b).
    { intros a b Ha Hb. rewrite (moment2_ext st _ _ a b (fun i _ => F i)). apply eq_stress; assumption || exact I. }
    assert (St : st = stab_stencil k (om_s m)) by apply Es.
    set (r := (1 / (om_tau m + 1/2) - 1) * (1 + w2)) in *. set (reg := stabilize k (mirror f feq)) in *.
    assert (K0 := s_mass k (om_s m) (mirror f feq)). assert (K1 := s_momentum k (om_s m) (mirror f feq)). assert (K2 := fun a b => s_moment2 k (om_s m) (mirror f feq) a b Ke).
    cbv zeta in K0, K1, K2. rewrite <- St in K0, K1, K2. fold reg in K0, K1, K2.
    split; [|split].
    - rewrite !mass_sum in K0. rewrite mass_sum, (sum_relaxed _ f _ _ _ _ r E K0), <- !mass_sum, M. ring.
    - intros a Ha. unfold momentum. rewrite (sum_relaxed _ f _ _ _ (fun i => st_e st i a) r E (K1 a Ha)).
      fold (momentum st feq a) (momentum st f a). rewrite (J a Ha). reflexivity.
    - intros a b Ha Hb. specialize (K2 a b Ha Hb). rewrite !moment2_sum in K2. rewrite moment2_sum, (sum_relaxed _ f _ _ _ _ r E K2), <- !moment2_sum, (P a b Ha Hb). reflexivity.
  Qed.
End Result.

(** ** Fixed points *)
Lemma above_positive Q f : above Q f = true -> positive Q f = true.
Proof.
  induction Q as [|n IH]; [reflexivity|]. unfold above, positive. fold (above n f). fold (positive n f).
  destruct (Rlt_dec (1 / 10^11) (f n)) as [L|]; [|discriminate]. intros H. destruct (Rlt_dec 0 (f n)) as [|N]; [exact (IH H)|]. exfalso. lra.
Qed.
Lemma above_ext Q f g : (forall i, (i < Q)%nat -> f i = g i) -> above Q f = above Q g.
Proof.
  induction Q as [|n IH]; intros E; [reflexivity|]. unfold above. fold (above n f). fold (above n g). rewrite (E n) by lia. rewrite IH by (intros; apply E; lia). reflexivity.
Qed.
Lemma positive_ext Q f g : (forall i, (i < Q)%nat -> f i = g i) -> positive Q f = positive Q g.
Proof.
  induction Q as [|n IH]; intros E; [reflexivity|]. unfold positive. fold (positive n f). fold (positive n g). rewrite (E n) by lia. rewrite IH by (intros; apply E; lia). reflexivity.
Qed.
Lemma entropy_ext Q w f g : (forall i, (i < Q)%nat -> f i = g i) -> entropy Q w f = entropy Q w g.
Proof.
  intros E. unfold entropy. rewrite (positive_ext Q f g E). destruct (positive Q g); [|reflexivity]. do 2 f_equal. apply sumf_ext. intros i Hi. rewrite (E i Hi). reflexivity.
Qed.

Lemma omega_zero Q w f reg post d : (forall i, (i < Q)%nat -> reg i = post i) -> above Q f = true -> above Q reg = true ->
  est_omega2 Q w f reg post d = Ok 0.
Proof.
  intros E Af Ar. assert (Pf := above_positive _ _ Af). assert (Pr := above_positive _ _ Ar). unfold est_omega2.
  rewrite <- (entropy_ext Q w reg post E). unfold entropy, entropyDerivative. rewrite Pf, Pr. cbn [obind].
  destruct (Rlt_dec _ _); [|reflexivity]. rewrite Rminus_eq_0, Rabs_R0. destruct (Rlt_dec (1 / 10^10) 0) as [L|]; [exfalso; lra|reflexivity].
Qed.

Section Fixed.
  Variables (m : old_model) (rho : R) (v f u : nat -> R) (k : stab_kind).
  Hypothesis Hs : om_s m <> 0.
  Hypothesis Hk : est_kind (om_t m) = Some k.
  Let st := stencil_of (om_t m) (om_s m).
  Hypothesis Hrho : 1 / 10^12 <= rho.
  Hypothesis Hf : forall i, (i < st_Q st)%nat -> f i = old_eq MRTStandard st rho v i.

  Lemma est_fixed : exists o, node_est m false f u = Ok o /\ same_populations st f (no_f o) /\ no_rho o = rho /\ (forall a, (a < st_D st)%nat -> no_u o a = v a).
  Proof.
    destruct (est_kinds _ _ Hk) as (Ke & Ct & Es).
    assert (Sd : forall i, old_eq MRTStandard st rho v i = old_eq BGKStandard st rho v i) by reflexivity.
    assert (M : mass st f = rho) by (rewrite (mass_ext st _ _ Hf); apply (old_eq_mass (om_t m) (om_s m) Ct Hs MRTStandard)).
    assert (J : forall a, (a < st_D st)%nat -> momentum st f a = rho * v a)
      by (intros a Ha; rewrite (momentum_ext st _ _ a Hf); apply (old_eq_momentum (om_t m) (om_s m) Ct Hs MRTStandard); exact Ha).
    set (v' := fun a => momentum st f a / mass st f).
    assert (V : forall a, (a < st_D st)%nat -> v' a = v a) by (intros a Ha; unfold v'; rewrite (J a Ha), M; field; lra).
    set (feq := est_feq st (mass st f) v').
    assert (E : forall i, (i < st_Q st)%nat -> feq i = f i).
    { intros i Hi. unfold feq, st. rewrite (est_feq_eq _ _ _ _ _ Ct). fold st. rewrite M, (Hf i Hi), Sd. apply old_eq_ext. exact V. }
    assert (P : forall i, (i < st_Q st)%nat -> mirror f feq i = f i) by (intros i Hi; unfold mirror; rewrite (E i Hi); ring).
    assert (G : forall i, (i < st_Q st)%nat -> stabilize k (mirror f feq) i = f i).
    { intros i Hi. assert (Hq : stab_size k = st_Q st) by (unfold st; rewrite Es, stab_Q; reflexivity).
      transitivity (stabilize k (old_eq BGKStandard (stab_stencil k (om_s m)) rho v) i).
      - unfold stabilize. apply sumf_ext. intros j Hj. rewrite Hq in Hj. rewrite (P j Hj), (Hf j Hj). unfold st. rewrite Es. reflexivity.
      - rewrite stab_equilibrium by (try assumption; rewrite Hq; exact Hi). rewrite (Hf i Hi). unfold st. rewrite Es. reflexivity. }
    assert (C : exists f', collideOne st k (om_tau m + 1/2) (mass st f) v' f = Ok f' /\ forall i, (i < st_Q st)%nat -> f' i = f i).
    { unfold collideOne. cbv zeta. fold feq. fold (mirror f feq).
      destruct (_ && _ && _ && _) eqn:A.
      - rewrite !andb_true_iff in A. destruct A as [[[A1 A2] A3] A4].
        rewrite omega_zero by (try assumption; intros i Hi; rewrite (G i Hi), (P i Hi); reflexivity). cbn [obind].
        eexists. split; [reflexivity|]. intros i Hi. cbv beta. rewrite (G i Hi), (E i Hi). ring.
      - eexists. split; [reflexivity|]. intros i Hi. cbv beta. rewrite (G i Hi), (E i Hi). ring. }
    destruct C as (f' & C & F). exists {| no_f := f'; no_rho := mass st f; no_u := v' |}. cbn [no_f no_rho no_u].
    split; [|split; [exact F|split; [exact M|exact V]]].
    unfold node_est. rewrite Hk. fold st. cbv zeta. change (sumf (st_Q st) f) with (mass st f). destruct (Rlt_dec (mass st f) (1 / 10^12)) as [L|_]; [exfalso; lra|].
    change (fun j => sumf (st_Q st) (fun i => f i * st_e st i j) / mass st f) with v'. rewrite C. reflexivity.
  Qed.
End Fixed.
