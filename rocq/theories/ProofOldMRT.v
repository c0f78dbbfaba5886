(** Relaxation of the momentum flux and of the third moments by the MRT classes on D2Q9. *)
From Verif Require Import Prelude StencilData ModelStencils SpecStencils SpecCollision BigSum ProofStencils
  ProofWick ModelConfigNames ModelEquilibria ModelCollision SpecSetup ProofEquilibria ProofEqMoments ProofRelax ProofCollideNode ProofCollideAll ProofFixed
  ModelOldCollision SpecOldCollision ProofOldCollision ProofOldNode ProofOldNode2 ProofOldForce ProofOldLoop ProofOldMore ProofOldRefuted ProofOldRefuted2 SpecOldMRT.
Local Open Scope R_scope.

(** ** Moments of the transformed populations *)
Lemma back_diag s n : moment2 (D2Q9 s) (mrt_back n) 0 0 - moment2 (D2Q9 s) (mrt_back n) 1 1 = s * s * (4 * n 7%nat).
Proof. unfold moment2, mrt_back. nine. field. Qed.
Lemma back_shear s n : moment2 (D2Q9 s) (mrt_back n) 0 1 = s * s * (4 * n 8%nat).
Proof. unfold moment2, mrt_back. nine. field. Qed.
Lemma back_trace s n : moment2 (D2Q9 s) (mrt_back n) 0 0 + moment2 (D2Q9 s) (mrt_back n) 1 1 = s * s * (12 * n 0%nat + 12 * n 1%nat).
Proof. unfold moment2, mrt_back. nine. field. Qed.
Lemma back_third s n a : (a < 2)%nat -> moment3 (D2Q9 s) (mrt_back n) a (1 - a) (1 - a) = s * s * s * match a with O => 4 * n 3%nat + 4 * n 4%nat | _ => 4 * n 5%nat + 4 * n 6%nat end.
Proof. intros Ha. unfold moment3, mrt_back. destruct a as [|[|a]]; [| |lia]; cbn [Nat.sub]; nine; field. Qed.

Lemma moments_diag s f : moment2 (D2Q9 s) f 0 0 - moment2 (D2Q9 s) f 1 1 = s * s * mrt_moments f 7%nat.
Proof. unfold moment2, mrt_moments. nine. field. Qed.
Lemma moments_shear s f : moment2 (D2Q9 s) f 0 1 = s * s * mrt_moments f 8%nat.
Proof. unfold moment2, mrt_moments. nine. field. Qed.
Lemma moments_trace s f : moment2 (D2Q9 s) f 0 0 + moment2 (D2Q9 s) f 1 1 = s * s * ((4 * mrt_moments f 0%nat + mrt_moments f 1%nat) / 3).
Proof. unfold moment2, mrt_moments. nine. field. Qed.
Lemma moments_third s f a : (a < 2)%nat -> moment3 (D2Q9 s) f a (1 - a) (1 - a) = s * s * s * match a with
  O => (2 * mrt_moments f 3%nat + mrt_moments f 4%nat) / 3 | _ => (2 * mrt_moments f 5%nat + mrt_moments f 6%nat) / 3 end.
Proof. intros Ha. unfold moment3, mrt_moments. destruct a as [|[|a]]; [| |lia]; cbn [Nat.sub]; nine; field. Qed.
Lemma moments_x s f : momentum (D2Q9 s) f 0 = s * mrt_moments f 3%nat.
Proof. exact (moments_momentum s f 0 ltac:(lia)). Qed.
Lemma moments_y s f : momentum (D2Q9 s) f 1 = s * mrt_moments f 5%nat.
Proof. exact (moments_momentum s f 1 ltac:(lia)). Qed.

Section Standard.
  Context (m : old_model) (init : bool) (rho_old : R) (f u : nat -> R) (o : node_out).
  Hypothesis Ht : om_t m = Stencil_D2Q9.
  Hypothesis Htau : om_tau m + 1/2 <> 0.
  Let st := D2Q9 (om_s m).
  Let om := 1 / (om_tau m + 1/2).
  Let sq := 8 * (2 - om) / (8 - om).

  Hypothesis H : old_node MRTStandard m init rho_old f u = Ok o.

  Lemma std_back : no_f o = mrt_back (fun j => (mrt_moments f j - mrt_rates m j * (mrt_moments f j - mrt_meq (mass st f) (mrt_moments f 3%nat) (mrt_moments f 5%nat) j)) / MRTWeights j).
  Proof.
    cbn [old_node] in H. unfold node_mrt_standard in H. rewrite Ht in H. cbv zeta in H.
    change (sumf 9 f) with (mass st f) in H. destruct (Req_EM_T _ 0); [discriminate|]. injection H as <-. reflexivity.
  Qed.

  Ltac start := intros; rewrite std_back; unfold st;
    first [rewrite back_diag, moments_diag | rewrite back_shear, moments_shear | rewrite back_trace, moments_trace | rewrite back_third, moments_third by assumption];
    rewrite ?moments_x, ?moments_y; change (mass (D2Q9 (om_s m)) f) with (mrt_moments f 0%nat);
    unfold mrt_rates; cbv zeta; fold om; fold sq; generalize om; intros r; generalize sq; intros q; generalize (mrt_moments f); intros mo;
    unfold mrt_meq, MRTWeights, vec; cbn [nth].

  Lemma std_diag : moment2 st (no_f o) 0 0 - moment2 st (no_f o) 1 1 =
    (1 - om) * (moment2 st f 0 0 - moment2 st f 1 1) + om * (mass st f * (momentum st f 0 * momentum st f 0 - momentum st f 1 * momentum st f 1)).
  Proof. start. field. Qed.
  Lemma std_shear : moment2 st (no_f o) 0 1 = (1 - om) * moment2 st f 0 1 + om * (mass st f * (momentum st f 0 * momentum st f 1)).
  Proof. start. field. Qed.
  Lemma std_trace : moment2 st (no_f o) 0 0 + moment2 st (no_f o) 1 1 =
    (1 - 8/5) * (moment2 st f 0 0 + moment2 st f 1 1) + 8/5 * (2 / 3 * om_s m * om_s m * mass st f + mass st f * (momentum st f 0 * momentum st f 0 + momentum st f 1 * momentum st f 1)).
  Proof. start. field. Qed.
  Lemma std_third a : (a < 2)%nat -> moment3 st (no_f o) a (1 - a) (1 - a) =
    (1 - sq) * moment3 st f a (1 - a) (1 - a) + sq * (om_s m * om_s m * (2 - mass st f) / 3 * momentum st f a).
  Proof. intros Ha. unfold st; rewrite (moments_momentum _ f) by assumption. start. destruct a; field. Qed.
End Standard.

Section Entropic.
  Context (m : old_model) (init : bool) (rho_old : R) (f u : nat -> R) (o : node_out).
  Hypothesis Ht : om_t m = Stencil_D2Q9.
  Hypothesis Htau : om_tau m + 1/2 <> 0.
  Let st := D2Q9 (om_s m).
  Let om := 1 / (om_tau m + 1/2).
  Hypothesis H : old_node MRTEntropic m init rho_old f u = Ok o.

  Lemma ent_back : mass st f <> 0 /\ no_f o = mrt_back (fun j => vec
    [ mass st f; mrt_moments f 1%nat - om * (mrt_moments f 1%nat - (- 2 * mass st f + 3 / mass st f * (mrt_moments f 3%nat * mrt_moments f 3%nat + mrt_moments f 5%nat * mrt_moments f 5%nat)));
      - mass st f - (mrt_moments f 1%nat - om * (mrt_moments f 1%nat - (- 2 * mass st f + 3 / mass st f * (mrt_moments f 3%nat * mrt_moments f 3%nat + mrt_moments f 5%nat * mrt_moments f 5%nat))));
      mrt_moments f 3%nat; - mrt_moments f 3%nat; mrt_moments f 5%nat; - mrt_moments f 5%nat;
      mrt_moments f 7%nat - om * (mrt_moments f 7%nat - (mrt_moments f 3%nat * mrt_moments f 3%nat - mrt_moments f 5%nat * mrt_moments f 5%nat));
      mrt_moments f 8%nat - om * (mrt_moments f 8%nat - mrt_moments f 3%nat * mrt_moments f 5%nat) ] j / MRTWeights j).
  Proof.
    cbn [old_node] in H. unfold node_mrt_entropic in H. rewrite Ht in H. unfold node_mrt_entropic_D2Q9 in H. apply checked_inv in H. destruct H as [_ H0]. cbv zeta in H0.
    change (mrt_moments f 0) with (mass st f) in H0. destruct (Req_EM_T _ 0) as [|Hr]; [discriminate|]. split; [exact Hr|]. injection H0 as <-. cbn [no_f].
    assert (Ek : forall x, - 1 / (om_tau m + 1/2) * x = - (om * x)) by (intros; unfold om; field; lra).
    rewrite !Ek. reflexivity.
  Qed.

  Ltac start := intros; destruct ent_back as [Hr E]; rewrite E; clear E; revert Hr; unfold st;
    first [rewrite back_diag, moments_diag | rewrite back_shear, moments_shear | rewrite back_trace, moments_trace | rewrite back_third by assumption];
    rewrite ?moments_x, ?moments_y; change (mass (D2Q9 (om_s m)) f) with (mrt_moments f 0%nat);
    generalize om; intros r; generalize (mrt_moments f); intros mo Hr;
    unfold MRTWeights, vec; cbn [nth].

  Lemma ent_diag : moment2 st (no_f o) 0 0 - moment2 st (no_f o) 1 1 =
    (1 - om) * (moment2 st f 0 0 - moment2 st f 1 1) + om * (momentum st f 0 * momentum st f 0 - momentum st f 1 * momentum st f 1).
  Proof. start. field; try exact Hr. Qed.
  Lemma ent_shear : moment2 st (no_f o) 0 1 = (1 - om) * moment2 st f 0 1 + om * (momentum st f 0 * momentum st f 1).
  Proof. start. field; try exact Hr. Qed.
  Lemma ent_trace : moment2 st (no_f o) 0 0 + moment2 st (no_f o) 1 1 =
    (1 - om) * (moment2 st f 0 0 + moment2 st f 1 1) + om * (2 / 3 * om_s m * om_s m * mass st f + (momentum st f 0 * momentum st f 0 + momentum st f 1 * momentum st f 1) / mass st f).
  Proof. start. field; try exact Hr. Qed.
  Lemma ent_third a : (a < 2)%nat -> moment3 st (no_f o) a (1 - a) (1 - a) = om_s m * om_s m / 3 * momentum st f a.
  Proof. intros Ha. unfold st; rewrite (moments_momentum _ f) by assumption. start. destruct a; field. Qed.
End Entropic.

(** ** Stress *)
Definition flux_factor (c : old_class) (rho : R) : R := match c with MRTStandard => rho | _ => 1 end.
Definition bulk_rate (c : old_class) (m : old_model) : R := match c with MRTStandard => 8/5 | _ => 1 / (om_tau m + 1/2) end.

Lemma mrt_mass c m rho_old f u o : c = MRTStandard \/ c = MRTEntropic -> om_t m = Stencil_D2Q9 -> old_node c m false rho_old f u = Ok o ->
  let st := D2Q9 (om_s m) in mass st (no_f o) = mass st f /\ forall a, (a < 2)%nat -> momentum st (no_f o) a = momentum st f a.
Proof.
  intros Hc Ht H. cbv zeta. destruct Hc as [-> | ->].
  - destruct (mrt_standard_conserves _ _ _ _ _ Ht H) as [[A B] _]. rewrite Ht in A, B. split; [exact A|exact B].
  - destruct (mrt_entropic_conserves _ _ _ _ _ Ht H) as [[A B] _]. rewrite Ht in A, B. split; [exact A|exact B].
Qed.

Lemma mrt_flux c m rho_old f u o : c = MRTStandard \/ c = MRTEntropic -> om_t m = Stencil_D2Q9 -> om_tau m + 1/2 <> 0 -> old_node c m false rho_old f u = Ok o ->
  let st := D2Q9 (om_s m) in let om := 1 / (om_tau m + 1/2) in let k := flux_factor c (mass st f) in
  moment2 st (no_f o) 0 1 = (1 - om) * moment2 st f 0 1 + om * (k * (momentum st f 0 * momentum st f 1)) /\
  moment2 st (no_f o) 0 0 - moment2 st (no_f o) 1 1 =
    (1 - om) * (moment2 st f 0 0 - moment2 st f 1 1) + om * (k * (momentum st f 0 * momentum st f 0 - momentum st f 1 * momentum st f 1)).
Proof.
  intros Hc Ht Htau H. cbv zeta. destruct Hc as [-> | ->]; cbn [flux_factor].
  - split; [exact (std_shear _ _ _ _ _ _ Ht H)|exact (std_diag _ _ _ _ _ _ Ht H)].
  - split; [rewrite (ent_shear _ _ _ _ _ _ Ht Htau H)|rewrite (ent_diag _ _ _ _ _ _ Ht Htau H)]; ring.
Qed.

Lemma mrt_stress c m rho_old f u o : c = MRTStandard \/ c = MRTEntropic -> om_t m = Stencil_D2Q9 -> om_tau m + 1/2 <> 0 -> old_node c m false rho_old f u = Ok o ->
  mass (D2Q9 (om_s m)) f = 1 ->
  let st := D2Q9 (om_s m) in let om := 1 / (om_tau m + 1/2) in
  stress st (no_f o) 0 1 = (1 - om) * stress st f 0 1 /\
  stress st (no_f o) 0 0 - stress st (no_f o) 1 1 = (1 - om) * (stress st f 0 0 - stress st f 1 1) /\
  stress st (no_f o) 0 0 + stress st (no_f o) 1 1 = (1 - bulk_rate c m) * (stress st f 0 0 + stress st f 1 1).
Proof.
  intros Hc Ht Htau H H1. cbv zeta. set (st := D2Q9 (om_s m)) in *. set (om := 1 / (om_tau m + 1/2)).
  destruct (mrt_flux _ _ _ _ _ _ Hc Ht Htau H) as [A B]. fold st om in A, B. rewrite H1 in A, B.
  destruct (mrt_mass _ _ _ _ _ _ Hc Ht H) as [M P]. fold st in M, P.
  assert (Ek : flux_factor c 1 = 1) by (destruct Hc as [-> | ->]; reflexivity). rewrite Ek in A, B.
  unfold stress. rewrite M, !P, H1 by lia.
  assert (D0 : delta 0 0 = 1) by reflexivity. assert (D1 : delta 0 1 = 0) by reflexivity. assert (D2 : delta 1 1 = 1) by reflexivity. rewrite D0, D1, D2.
  split; [rewrite A; field|].
  split.
  - transitivity (moment2 st (no_f o) 0 0 - moment2 st (no_f o) 1 1 - (momentum st f 0 * momentum st f 0 - momentum st f 1 * momentum st f 1)); [field|]. rewrite B. field.
  - assert (T : moment2 st (no_f o) 0 0 + moment2 st (no_f o) 1 1 = (1 - bulk_rate c m) * (moment2 st f 0 0 + moment2 st f 1 1) +
      bulk_rate c m * (2 / 3 * om_s m * om_s m + (momentum st f 0 * momentum st f 0 + momentum st f 1 * momentum st f 1))).
    { destruct Hc as [-> | ->]; cbn [bulk_rate].
      - pose proof (std_trace _ _ _ _ _ _ Ht H) as T. fold st in T. rewrite T, H1. field.
      - pose proof (ent_trace _ _ _ _ _ _ Ht Htau H) as T. fold st om in T. rewrite T, H1. fold om. field. }
    assert (C : st_cs2 st = om_s m * om_s m / 3) by (unfold st; cbn [D2Q9 st_cs2]; field). rewrite C.
    transitivity (moment2 st (no_f o) 0 0 + moment2 st (no_f o) 1 1 - (2 / 3 * om_s m * om_s m + (momentum st f 0 * momentum st f 0 + momentum st f 1 * momentum st f 1))); [field|].
    rewrite T. field.
Qed.

(** The entropic class relaxes the trace at every density. *)
Lemma mrt_entropic_trace m rho_old f u o : om_t m = Stencil_D2Q9 -> om_tau m + 1/2 <> 0 -> old_node MRTEntropic m false rho_old f u = Ok o ->
  let st := D2Q9 (om_s m) in stress st (no_f o) 0 0 + stress st (no_f o) 1 1 = (1 - 1 / (om_tau m + 1/2)) * (stress st f 0 0 + stress st f 1 1).
Proof.
  intros Ht Htau H. cbv zeta. set (st := D2Q9 (om_s m)) in *.
  destruct (mrt_mass _ _ _ _ _ _ (or_intror eq_refl) Ht H) as [M P]. fold st in M, P.
  destruct (ent_back _ _ _ _ _ _ Ht Htau H) as [Hr _]. fold st in Hr.
  unfold stress. rewrite M, !P by lia. change (delta 0 0) with 1. change (delta 1 1) with 1.
  assert (C : st_cs2 st = om_s m * om_s m / 3) by (unfold st; cbn [D2Q9 st_cs2]; field). rewrite C.
  transitivity (moment2 st (no_f o) 0 0 + moment2 st (no_f o) 1 1 - (2 / 3 * om_s m * om_s m * mass st f + (momentum st f 0 * momentum st f 0 + momentum st f 1 * momentum st f 1) / mass st f)); [field; exact Hr|].
  pose proof (ent_trace _ _ _ _ _ _ Ht Htau H) as T. fold st in T. rewrite T. field. split; [exact Hr|lra].
Qed.

(** ** Third moments *)
Lemma magic r : r <> 0 -> r <> 2 -> r <> 8 -> (1 / r - 1/2) * (1 / (8 * (2 - r) / (8 - r)) - 1/2) = 3/16.
Proof. intros. field. repeat split; lra. Qed.

Lemma mrt_magic m rho_old f u o : om_t m = Stencil_D2Q9 -> 0 < om_tau m -> old_node MRTStandard m false rho_old f u = Ok o ->
  mass (D2Q9 (om_s m)) f = 1 ->
  let st := D2Q9 (om_s m) in
  exists q, om_tau m * (1 / q - 1/2) = 3/16 /\
  forall a, (a < 2)%nat -> moment3 st (no_f o) a (1 - a) (1 - a) - st_cs2 st * momentum st (no_f o) a =
    (1 - q) * (moment3 st f a (1 - a) (1 - a) - st_cs2 st * momentum st f a).
Proof.
  intros Ht Htau H H1. cbv zeta. set (st := D2Q9 (om_s m)) in *. set (r := 1 / (om_tau m + 1/2)).
  assert (Hd : 0 < om_tau m + 1/2) by lra.
  assert (Hr0 : 0 < r) by (unfold r; apply Rdiv_lt_0_compat; lra).
  assert (Hr2 : r < 2). { unfold r. apply (Rmult_lt_reg_r (om_tau m + 1/2)); [exact Hd|]. unfold Rdiv. rewrite Rmult_assoc, Rinv_l by lra. lra. }
  exists (8 * (2 - r) / (8 - r)). split.
  - rewrite <- (magic r) by lra. f_equal. unfold r. field. lra.
  - intros a Ha. pose proof (std_third _ _ _ _ _ _ Ht H a Ha) as T. fold st r in T. rewrite T. destruct (mrt_mass _ _ _ _ _ _ (or_introl eq_refl) Ht H) as [_ P]. fold st in P. rewrite P by exact Ha.
    rewrite H1. assert (C : st_cs2 st = om_s m * om_s m / 3) by (unfold st; cbn [D2Q9 st_cs2]; field). rewrite C. set (q := 8 * (2 - r) / (8 - r)). field.
Qed.

Lemma mrt_entropic_third m rho_old f u o : om_t m = Stencil_D2Q9 -> om_tau m + 1/2 <> 0 -> old_node MRTEntropic m false rho_old f u = Ok o ->
  let st := D2Q9 (om_s m) in forall a, (a < 2)%nat -> moment3 st (no_f o) a (1 - a) (1 - a) = st_cs2 st * momentum st (no_f o) a.
Proof.
  intros Ht Htau H. cbv zeta. intros a Ha. rewrite (ent_third _ _ _ _ _ _ Ht Htau H a Ha).
  destruct (mrt_mass _ _ _ _ _ _ (or_intror eq_refl) Ht H) as [_ P]. rewrite P by exact Ha. cbn [D2Q9 st_cs2]. field.
Qed.

(** ** Witnesses *)
Definition corner : nat -> R := vec [0; 1; 1; 0; 0; 0; 0; 0; 0].

Lemma corner_facts : mass (D2Q9 1) corner = 2 /\ momentum (D2Q9 1) corner 0 = 1 /\ momentum (D2Q9 1) corner 1 = 1 /\ moment2 (D2Q9 1) corner 0 1 = 0.
Proof. unfold mass, momentum, moment2, corner. repeat split; nine; field. Qed.

Lemma corner_runs c : c = MRTStandard \/ c = MRTEntropic -> exists o, old_node c (unit_model Stencil_D2Q9) false 2 corner zero = Ok o.
Proof.
  destruct corner_facts as [M _]. intros [-> | ->]; cbn [old_node].
  - unfold node_mrt_standard, unit_model, old_new. cbn [om_t]. cbv zeta. change (sumf 9 corner) with (mass (D2Q9 1) corner). rewrite M.
    destruct (Req_EM_T 2 0); [lra|]. eexists. reflexivity.
  - unfold node_mrt_entropic, node_mrt_entropic_D2Q9, unit_model, old_new. cbn [om_t]. rewrite checked_ok by lra. cbv zeta. change (mrt_moments corner 0) with (mass (D2Q9 1) corner). rewrite M.
    destruct (Req_EM_T 2 0); [lra|]. eexists. reflexivity.
Qed.

Lemma corner_stress c : c = MRTStandard \/ c = MRTEntropic -> exists o, old_node c (unit_model Stencil_D2Q9) false 2 corner zero = Ok o /\
  stress (D2Q9 1) (no_f o) 0 1 <> (1 - 1 / (om_tau (unit_model Stencil_D2Q9) + 1/2)) * stress (D2Q9 1) corner 0 1.
Proof.
  intros Hc. destruct (corner_runs c Hc) as [o H]. exists o. split; [exact H|].
  assert (Et : om_tau (unit_model Stencil_D2Q9) + 1/2 = 1) by (unfold unit_model, old_new; cbn [om_tau]; field).
  destruct (mrt_flux c (unit_model Stencil_D2Q9) 2 corner zero o Hc eq_refl ltac:(rewrite Et; lra) H) as [A _].
  destruct (mrt_mass c (unit_model Stencil_D2Q9) 2 corner zero o Hc eq_refl H) as [M P].
  change (om_s (unit_model Stencil_D2Q9)) with 1 in A, M, P. rewrite Et in A |- *.
  destruct corner_facts as (C0 & C1 & C2 & C3). unfold stress. rewrite M, !P by lia. rewrite A, C0, C1, C2, C3. change (delta 0 1) with 0.
  destruct Hc as [-> | ->]; cbn [flux_factor]; lra.
Qed.

(** A state of density one. *)
Definition half_corner : nat -> R := fun i => corner i / 2.
Lemma half_facts : mass (D2Q9 1) half_corner = 1 /\ stress (D2Q9 1) half_corner 0 1 = -1/4 /\ stress (D2Q9 1) half_corner 0 0 = -1/12 /\
  moment3 (D2Q9 1) half_corner 0 1 1 - st_cs2 (D2Q9 1) * momentum (D2Q9 1) half_corner 0 = -1/6.
Proof. unfold stress, moment3, mass, momentum, moment2, half_corner, corner. change (delta 0 1) with 0. change (delta 0 0) with 1. repeat split; nine; field. Qed.
Lemma half_runs c : c = MRTStandard \/ c = MRTEntropic -> exists o, old_node c (tau1_model Stencil_D2Q9) false 1 half_corner zero = Ok o.
Proof.
  destruct half_facts as [M _]. intros [-> | ->]; cbn [old_node].
  - unfold node_mrt_standard, tau1_model, old_new. cbn [om_t]. cbv zeta. change (sumf 9 half_corner) with (mass (D2Q9 1) half_corner). rewrite M.
    destruct (Req_EM_T 1 0); [lra|]. eexists. reflexivity.
  - unfold node_mrt_entropic, node_mrt_entropic_D2Q9, tau1_model, old_new. cbn [om_t]. rewrite checked_ok by lra. cbv zeta. change (mrt_moments half_corner 0) with (mass (D2Q9 1) half_corner). rewrite M.
    destruct (Req_EM_T 1 0); [lra|]. eexists. reflexivity.
Qed.

(** ** For the objects the constructors make *)
Lemma made_tau c s nu dt m : c = MRTStandard \/ c = MRTEntropic -> s <> 0 -> make_old c Stencil_D2Q9 s nu dt = Ok m ->
  om_t m = Stencil_D2Q9 /\ om_s m = s /\ om_tau m = nu / (dt * (s * s / 3)) /\ 0 < om_tau m.
Proof.
  intros Hc Hs H. destruct (make_old_inv _ _ _ _ _ _ H) as (Hn & Hd & Et & Es & _ & _ & _ & Etau).
  assert (E : om_tau m = nu / (dt * (s * s / 3))).
  { transitivity (nu / (dt * st_cs2 (D2Q9 s))); [destruct Hc as [-> | ->]; exact Etau|]. reflexivity. }
  repeat split; try assumption. rewrite E. apply Rdiv_lt_0_compat; [assumption|]. apply Rmult_lt_0_compat; [assumption|].
  assert (0 < s * s) by (apply Rsqr_pos_lt; exact Hs). lra.
Qed.

Lemma made_stress c s nu dt m rho_old f u o : c = MRTStandard \/ c = MRTEntropic -> s <> 0 -> make_old c Stencil_D2Q9 s nu dt = Ok m ->
  old_node c m false rho_old f u = Ok o -> mass (D2Q9 s) f = 1 ->
  stress (D2Q9 s) (no_f o) 0 1 = (1 - viscous_rate s nu dt) * stress (D2Q9 s) f 0 1 /\
  stress (D2Q9 s) (no_f o) 0 0 - stress (D2Q9 s) (no_f o) 1 1 = (1 - viscous_rate s nu dt) * (stress (D2Q9 s) f 0 0 - stress (D2Q9 s) f 1 1) /\
  stress (D2Q9 s) (no_f o) 0 0 + stress (D2Q9 s) (no_f o) 1 1 =
    (1 - match c with MRTStandard => 8/5 | _ => viscous_rate s nu dt end) * (stress (D2Q9 s) f 0 0 + stress (D2Q9 s) f 1 1).
Proof.
  intros Hc Hs Hm H H1. destruct (made_tau _ _ _ _ _ Hc Hs Hm) as (Et & Es & Etau & Hp). unfold viscous_rate. rewrite <- Etau.
  pose proof (mrt_stress c m rho_old f u o Hc Et ltac:(lra) H) as X. cbv zeta in X. rewrite Es in X. destruct (X H1) as (A & B & C).
  repeat split; assumption.
Qed.

Lemma made_flux c s nu dt m rho_old f u o : c = MRTStandard \/ c = MRTEntropic -> s <> 0 -> make_old c Stencil_D2Q9 s nu dt = Ok m ->
  old_node c m false rho_old f u = Ok o ->
  let om := viscous_rate s nu dt in let k := match c with MRTStandard => mass (D2Q9 s) f | _ => 1 end in
  moment2 (D2Q9 s) (no_f o) 0 1 = (1 - om) * moment2 (D2Q9 s) f 0 1 + om * (k * (momentum (D2Q9 s) f 0 * momentum (D2Q9 s) f 1)) /\
  moment2 (D2Q9 s) (no_f o) 0 0 - moment2 (D2Q9 s) (no_f o) 1 1 = (1 - om) * (moment2 (D2Q9 s) f 0 0 - moment2 (D2Q9 s) f 1 1) +
    om * (k * (momentum (D2Q9 s) f 0 * momentum (D2Q9 s) f 0 - momentum (D2Q9 s) f 1 * momentum (D2Q9 s) f 1)).
Proof.
  intros Hc Hs Hm H. destruct (made_tau _ _ _ _ _ Hc Hs Hm) as (Et & Es & Etau & Hp). unfold viscous_rate. rewrite <- Etau.
  pose proof (mrt_flux c m rho_old f u o Hc Et ltac:(lra) H) as X. cbv zeta in X |- *. rewrite Es in X. destruct Hc as [-> | ->]; exact X.
Qed.

Lemma made_trace s nu dt m rho_old f u o : s <> 0 -> make_old MRTEntropic Stencil_D2Q9 s nu dt = Ok m -> old_node MRTEntropic m false rho_old f u = Ok o ->
  stress (D2Q9 s) (no_f o) 0 0 + stress (D2Q9 s) (no_f o) 1 1 = (1 - viscous_rate s nu dt) * (stress (D2Q9 s) f 0 0 + stress (D2Q9 s) f 1 1).
Proof.
  intros Hs Hm H. destruct (made_tau _ _ _ _ _ (or_intror eq_refl) Hs Hm) as (Et & Es & Etau & Hp). unfold viscous_rate. rewrite <- Etau.
  pose proof (mrt_entropic_trace m rho_old f u o Et ltac:(lra) H) as X. cbv zeta in X. rewrite Es in X. exact X.
Qed.

Lemma made_magic s nu dt m rho_old f u o : s <> 0 -> make_old MRTStandard Stencil_D2Q9 s nu dt = Ok m -> old_node MRTStandard m false rho_old f u = Ok o ->
  mass (D2Q9 s) f = 1 ->
  exists q, (1 / viscous_rate s nu dt - 1/2) * (1 / q - 1/2) = 3/16 /\
  forall a, (a < 2)%nat -> moment3 (D2Q9 s) (no_f o) a (1 - a) (1 - a) - st_cs2 (D2Q9 s) * momentum (D2Q9 s) (no_f o) a =
    (1 - q) * (moment3 (D2Q9 s) f a (1 - a) (1 - a) - st_cs2 (D2Q9 s) * momentum (D2Q9 s) f a).
Proof.
  intros Hs Hm H H1. destruct (made_tau _ _ _ _ _ (or_introl eq_refl) Hs Hm) as (Et & Es & Etau & Hp). unfold viscous_rate. rewrite <- Etau.
  pose proof (mrt_magic m rho_old f u o Et Hp H) as X. cbv zeta in X. rewrite Es in X. destruct (X H1) as (q & A & B). exists q. split; [|exact B].
  rewrite <- A. f_equal. field. lra.
Qed.

Lemma made_third s nu dt m rho_old f u o : s <> 0 -> make_old MRTEntropic Stencil_D2Q9 s nu dt = Ok m -> old_node MRTEntropic m false rho_old f u = Ok o ->
  forall a, (a < 2)%nat -> moment3 (D2Q9 s) (no_f o) a (1 - a) (1 - a) = st_cs2 (D2Q9 s) * momentum (D2Q9 s) (no_f o) a.
Proof.
  intros Hs Hm H. destruct (made_tau _ _ _ _ _ (or_intror eq_refl) Hs Hm) as (Et & Es & Etau & Hp).
  pose proof (mrt_entropic_third m rho_old f u o Et ltac:(lra) H) as X. cbv zeta in X. rewrite Es in X. exact X.
Qed.

Lemma corner_refutes c : c = MRTStandard \/ c = MRTEntropic -> exists m f o, make_old c Stencil_D2Q9 1 (1/6) 1 = Ok m /\ old_node c m false 2 f zero = Ok o /\
  mass (D2Q9 1) f = 2 /\ stress (D2Q9 1) (no_f o) 0 1 <> (1 - viscous_rate 1 (1/6) 1) * stress (D2Q9 1) f 0 1.
Proof.
  intros Hc. destruct (corner_stress c Hc) as (o & A & B). exists (unit_model Stencil_D2Q9), corner, o.
  split; [apply make_unit; [destruct Hc as [-> | ->]; exact I|tauto]|]. split; [exact A|]. split; [exact (proj1 corner_facts)|].
  replace (viscous_rate 1 (1/6) 1) with (1 / (om_tau (unit_model Stencil_D2Q9) + 1/2)); [exact B|].
  unfold viscous_rate, unit_model, old_new. cbn [om_tau]. field.
Qed.

Lemma half_example c : c = MRTStandard \/ c = MRTEntropic -> exists m o, make_old c Stencil_D2Q9 1 (1/3) 1 = Ok m /\ old_node c m false 1 half_corner zero = Ok o /\
  mass (D2Q9 1) half_corner = 1 /\ stress (D2Q9 1) half_corner 0 1 = -1/4 /\
  moment3 (D2Q9 1) half_corner 0 1 1 - st_cs2 (D2Q9 1) * momentum (D2Q9 1) half_corner 0 = -1/6.
Proof.
  intros Hc. destruct (half_runs c Hc) as [o H]. exists (tau1_model Stencil_D2Q9), o.
  split; [apply make_tau1; [destruct Hc as [-> | ->]; exact I|tauto]|]. split; [exact H|]. destruct half_facts as (A & B & _ & D). repeat split; assumption.
Qed.
