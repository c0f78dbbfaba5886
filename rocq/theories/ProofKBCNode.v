(** The KBC collisions at one node. *)
From Coq Require Import QArith Qreals.
From Verif Require Import Prelude StencilData ModelStencils SpecStencils SpecCollision BigSum ProofStencils ProofEqMoments
  ModelConfigNames ModelEquilibria ModelCollision ModelOldCollision SpecOldCollision ProofOldCollision ProofOldNode ProofOldNode2 ModelEntropic SpecEntropic ProofKBC ProofKBC9 ProofKBCEq.
Local Open Scope R_scope.

(** What a KBC node does: relaxation towards [feq] with some shear part. *)
Record kbc_result (st : stencil) (tau : R) (f feq : nat -> R) (o : node_out) (good : nat -> nat -> Prop) : Prop := {
  kr_shear : exists k shear, kbc_relax (st_Q st) tau k shear f feq = Ok (no_f o) /\ shear_ok st shear /\
    (conserves st f feq -> forall a b, (a < st_D st)%nat -> (b < st_D st)%nat -> good a b -> shear_stress st shear f feq a b);
  kr_rho : no_rho o = mass st f;
  kr_pos : 1 / 10^10 <= mass st f;
  kr_mass : mass st feq = mass st f;
  kr_mom : forall a, (a < st_D st)%nat -> momentum st feq a = mass st f * no_u o a }.

Lemma v9 s v : s <> 0 -> forall a, (a < 2)%nat -> s * vec [v 0%nat / s; v 1%nat / s] a = v a.
Proof. intros Hs a Ha. do 2 (destruct a as [|a]; [unfold vec; cbn [nth]; field; exact Hs|]). lia. Qed.

Section D2Q9.
  Variables (m : old_model) (init : bool) (f u : nat -> R) (o : node_out).
  Hypothesis Ht : om_t m = Stencil_D2Q9.
  Hypothesis Hs : om_s m <> 0.
  Let st := D2Q9 (om_s m).
  Let s := om_s m.

  (** KBCStandard *)
  Lemma standard9 : node_kbc_D2Q9 m init f u = Ok o ->
    let feq := entropic_D2Q9 (mass st f) (no_u o 0%nat / s) (no_u o 1%nat / s) in
    kbc_result st (om_tau m) f feq o (fun _ _ => True) /\
    no_u o = (if init then u else raw_D2Q9 s (mass st f) f) /\ (no_u o 0%nat / s) * (no_u o 0%nat / s) <> 1 /\ (no_u o 1%nat / s) * (no_u o 1%nat / s) <> 1.
  Proof.
    unfold node_kbc_D2Q9. cbv zeta. change (sumf 9 f) with (mass st f). fold s. intros H. apply checked_inv in H. destruct H as [Hp H].
    assert (Hr : mass st f <> 0) by lra.
    set (v := if init then u else raw_D2Q9 s (mass st f) f) in *.
    destruct (kbc_relax _ _ _ _ _ _) as [f'| |] eqn:E; try discriminate. cbn [obind] in H. injection H as <-. cbn [no_u].
    assert (N : v 0%nat / s * (v 0%nat / s) <> 1 /\ v 1%nat / s * (v 1%nat / s) <> 1).
    { apply (entropic_nonzero (mass st f)). unfold kbc_relax in E. cbv zeta in E. destruct (nonzero 9 _); [reflexivity|discriminate]. }
    destruct N as [Nx Ny]. split; [|repeat split; assumption]. constructor; cbn [no_rho no_f no_u].
    - eexists. exists (shear_D2Q9 (mass st f)). split; [exact E|]. split; [apply shear9_ok; exact Hr|].
      intros _ a b Ha Hb _. apply shear9_stress; assumption.
    - reflexivity.
    - exact Hp.
    - apply entropic_mass; assumption.
    - intros a Ha. unfold st. rewrite entropic_momentum by assumption. rewrite (v9 (om_s m)) by assumption. reflexivity.
  Qed.

  (** KBCCentral *)
  Lemma central_feq rho v i : (i < 9)%nat ->
    feq_D2Q9 (1/2) (- (v 0%nat / s * (v 0%nat / s) + v 1%nat / s * (v 1%nat / s)) / (2 * (st_cs2 (D2Q9 s) / (s * s)))) (1 / (st_cs2 (D2Q9 s) / (s * s))) rho (vec [v 0%nat / s; v 1%nat / s]) i
    = old_eq MRTStandard st rho v i.
  Proof.
    intros Hi. assert (Hs' : s <> 0) by exact Hs. unfold st. fold s. unfold feq_D2Q9, old_eq, sp, ModelOldCollision.plus, minus. cbv zeta. cbn [D2Q9 st_D st_cs2 st_e st_w sumf].
    do 9 (destruct i as [|i]; [unfold vec; cbn [nth]; lit15; field; repeat split; assumption|]). lia.
  Qed.
  Lemma relax_ext Q tau k shear g feq feq' f' : (forall i, (i < Q)%nat -> feq i = feq' i) ->
    (forall i, shear feq i = shear feq' i) ->
    kbc_relax Q tau k shear g feq = Ok f' -> exists f'', kbc_relax Q tau k shear g feq' = Ok f'' /\ forall i, (i < Q)%nat -> f'' i = f' i.
  Proof.
    intros E Es H. destruct (relax_form _ _ _ _ _ _ _ H) as [N F].
    destruct (relax_runs Q tau k shear g feq') as [f'' H']; [intros i Hi; rewrite <- (E i Hi); auto|].
    exists f''. split; [exact H'|]. intros i Hi. destruct (relax_form _ _ _ _ _ _ _ H') as [_ F'].
    rewrite F, F', (E i Hi), (Es i). do 4 f_equal. f_equal; apply sumf_ext; intros j Hj; rewrite (E j Hj), (Es j); reflexivity.
  Qed.
  Lemma central9 : node_kbc_central m init f u = Ok o ->
    let feq := feq_D2Q9 (1/2) (- (no_u o 0%nat / s * (no_u o 0%nat / s) + no_u o 1%nat / s * (no_u o 1%nat / s)) / (2 * (st_cs2 (D2Q9 s) / (s * s))))
      (1 / (st_cs2 (D2Q9 s) / (s * s))) (mass st f) (vec [no_u o 0%nat / s; no_u o 1%nat / s]) in
    kbc_result st (om_tau m) f feq o (fun _ _ => True) /\
    no_u o = if init then u else raw_D2Q9 s (mass st f) f.
  Proof.
    unfold node_kbc_central. cbv zeta. change (sumf 9 f) with (mass st f). fold s. intros H. apply checked_inv in H. destruct H as [Hp H].
    assert (Hr : mass st f <> 0) by lra.
    set (v := if init then u else raw_D2Q9 s (mass st f) f) in *.
    destruct (kbc_relax _ _ _ _ _ _) as [f'| |] eqn:E; try discriminate. cbn [obind] in H. injection H as <-. cbn [no_u].
    split; [|reflexivity].
    set (feq := feq_D2Q9 _ _ _ _ _) in *.
    assert (F : forall i, (i < 9)%nat -> feq i = old_eq MRTStandard st (mass st f) v i) by (intros; apply central_feq; assumption).
    assert (M : mass st feq = mass st f).
    { rewrite (mass_ext st _ _ F). apply (old_eq_mass Stencil_D2Q9 (om_s m) eq_refl Hs MRTStandard). }
    assert (J : forall a, (a < 2)%nat -> momentum st feq a = mass st f * v a).
    { intros a Ha. rewrite (momentum_ext st _ _ a F). apply (old_eq_momentum Stencil_D2Q9 (om_s m) eq_refl Hs MRTStandard). exact Ha. }
    constructor; cbn [no_rho no_f no_u]; try assumption; try reflexivity.
    eexists. exists (shear_central s (mass st f) (v 0%nat / s) (v 1%nat / s)). split; [exact E|]. split; [apply central_ok; exact Hr|].
    intros [_ C] a b Ha Hb _. apply central_stress; try assumption.
  Qed.
End D2Q9.

(** KBCStandard on D3Q15, unscaled *)
Section D3Q15.
  Variables (m : old_model) (init : bool) (f u : nat -> R) (o : node_out).
  Hypothesis Hs : om_s m = 1.
  Let st := D3Q15 1.
  Lemma standard15 : node_kbc_D3Q15 m init f u = Ok o ->
    exists feq, kbc_result st (om_tau m) f feq o (fun a b => a = b) /\
    (forall i, (i < 15)%nat -> feq i = old_eq BGKStandard st (mass st f) (no_u o) i) /\
    no_u o = if init then u else raw_D3Q15 1 (mass st f) f.
  Proof.
    unfold node_kbc_D3Q15. cbv zeta. change (sumf 15 f) with (mass st f). rewrite Hs. intros H. apply checked_inv in H. destruct H as [Hp H].
    assert (Hr : mass st f <> 0) by lra.
    set (v := if init then u else raw_D3Q15 1 (mass st f) f) in *.
    destruct (kbc_relax _ _ _ _ _ _) as [f'| |] eqn:E; try discriminate. cbn [obind] in H. injection H as <-. cbn [no_u].
    set (feq := feq_D3Q15 _ _ _ _) in *. exists feq.
    assert (F : forall i, (i < 15)%nat -> feq i = old_eq BGKStandard st (mass st f) v i).
    { intros i Hi. unfold st. rewrite <- (feq15_ok 1) by (assumption || lra). unfold feq.
      replace (v 0%nat / 1) with (v 0%nat) by field. replace (v 1%nat / 1) with (v 1%nat) by field. replace (v 2%nat / 1) with (v 2%nat) by field. reflexivity. }
    assert (H1 : (1 : R) <> 0) by lra.
    assert (M : mass st feq = mass st f).
    { rewrite (mass_ext st _ _ F). apply (old_eq_mass Stencil_D3Q15 1 eq_refl H1 BGKStandard). }
    assert (J : forall a, (a < 3)%nat -> momentum st feq a = mass st f * v a).
    { intros a Ha. rewrite (momentum_ext st _ _ a F). apply (old_eq_momentum Stencil_D3Q15 1 eq_refl H1 BGKStandard). exact Ha. }
    split; [|split; [exact F|reflexivity]].
    constructor; cbn [no_rho no_f no_u]; try assumption; try reflexivity.
    eexists. exists (shear_D3Q15 (mass st f)). split; [exact E|]. split; [apply shear15_ok; exact Hr|].
    intros _ a b Ha Hb <-. apply shear15_diag; assumption.
  Qed.
End D3Q15.

(** ** Consequences *)
Section Results.
  Variables (st : stencil) (tau : R) (f feq : nat -> R) (o : node_out) (good : nat -> nat -> Prop).
  Hypothesis R : kbc_result st tau f feq o good.
  Lemma result_mass : mass st (no_f o) = mass st f.
  Proof.
    destruct R as [(k & sh & E & S & _) _ _ M _]. destruct (kbc_mass _ _ _ _ _ _ _ E S) as [r ->]. rewrite M. ring.
  Qed.
  Hypothesis V : forall a, (a < st_D st)%nat -> no_u o a = momentum st f a / mass st f.
  Lemma result_feq : conserves st f feq.
  Proof.
    destruct R as [_ _ P M J]. split; [exact M|]. intros a Ha. rewrite (J a Ha), (V a Ha). field. lra.
  Qed.
  Lemma result_conserves : conserves st f (no_f o).
  Proof.
    destruct R as [(k & sh & E & S & _) _ _ _ _]. destruct result_feq. apply (kbc_conserves _ _ _ _ _ _ _ E S); assumption.
  Qed.
  Lemma result_stress a b : tau + 1/2 <> 0 -> (a < st_D st)%nat -> (b < st_D st)%nat -> good a b ->
    moment2 st (no_f o) a b = moment2 st f a b - 1 / (tau + 1/2) * (moment2 st f a b - moment2 st feq a b).
  Proof.
    intros Ht Ha Hb Hg. destruct R as [(k & sh & E & S & C) _ _ _ _]. apply (kbc_stress _ _ _ _ _ _ _ E a b); [|exact Ht].
    apply C; try assumption. exact result_feq.
  Qed.
  Hypothesis Hpos : forall i, (i < st_Q st)%nat -> 0 < feq i.
  Hypothesis Ht : tau + 1/2 <> 0.
  Lemma result_contracts : distance st feq (no_f o) <= (1 - 1 / (tau + 1/2)) * (1 - 1 / (tau + 1/2)) * distance st feq f.
  Proof.
    destruct R as [(k & sh & E & S & C) _ _ _ _]. exact (stabiliser_contracts _ _ _ _ _ _ _ Hpos Ht E).
  Qed.
  Lemma result_optimal : (forall a b, good a b) -> exists d t0, no_moments st d /\
    (forall i, bgk_state tau f feq i = no_f o i + t0 * d i) /\
    (t0 = 0 /\ sumf (st_Q st) (fun i => d i * d i / feq i) < 1 / 10^16 \/
     forall t, distance st feq (no_f o) <= distance st feq (fun i => no_f o i + t * d i)).
  Proof.
    intros Hg. destruct result_feq as [M J]. destruct R as [(k & sh & E & S & C) _ _ _ _].
    destruct (stabiliser_direction _ _ _ _ _ _ _ Hpos Ht E) as [t0 D].
    eexists. exists t0. split; [|exact D].
    apply (dh_no_moments st sh f feq S); try assumption. intros a b Ha Hb. apply C; auto. split; assumption.
  Qed.
End Results.

(** A node whose populations are the equilibrium does not change. *)
Lemma relax_fixed Q tau k shear f feq f' : (forall i, (i < Q)%nat -> f i = feq i) -> (forall i, shear f i = shear feq i) ->
  kbc_relax Q tau k shear f feq = Ok f' -> forall i, (i < Q)%nat -> f' i = f i.
Proof.
  intros E Es H i Hi. destruct (relax_form _ _ _ _ _ _ _ H) as [_ F]. rewrite F, (E i Hi), (Es i). ring.
Qed.
