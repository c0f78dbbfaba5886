(** The pseudo-potential collision: force, momentum, visits. *)
From Coq Require Import QArith Qreals.
From Verif Require Import Prelude StencilData MRTEntropicData ModelStencils SpecStencils SpecCollision BigSum ProofStencils
  ProofWick ModelConfigNames ModelEquilibria ModelCollision SpecSetup ProofEquilibria ProofEqMoments ProofRelax ProofCollideNode ProofCollideAll
  ModelOldCollision SpecOldCollision ProofOldCollision ProofOldNode ProofOldNode2 ProofOldForce ModelMultiphase SpecMultiphase.
Local Open Scope R_scope.

(** ** The force that the collision uses is the external one *)
Lemma pp_force_zero P cs2 rho ext force : pp_force P cs2 rho (fun _ => 0) ext = Some force -> forall j, force j = ext j.
Proof.
  unfold pp_force. destruct (pp_type P).
  - intros H j. injection H as <-. ring.
  - intros H j. injection H as <-. ring.
  - destruct (Req_EM_T rho 1); [discriminate|]. destruct (Req_EM_T _ 0); [discriminate|]. destruct (Rlt_dec _ 0); [discriminate|].
    intros H j. injection H as <-. unfold Rdiv. ring.
Qed.

Definition pp_source (m : old_model) (force : nat -> R) (rho : R) (v : nat -> R) : nat -> R :=
  match om_forceType m with
  | EXACT_DIFFERENCE => edm_D2Q9 force v rho (om_dt m) (om_s m / st_cs2 (stencil_of (om_t m) (om_s m)))
  | _ => fun _ => 0
  end.

Lemma pp_node_inv P m rho f u o : om_t m = Stencil_D2Q9 -> om_s m <> 0 -> pp_node P m false rho f u = Ok o ->
  let st := stencil_of (om_t m) (om_s m) in
  1 / 10^10 <= rho /\ no_rho o = rho /\ exists force, (forall j, force j = om_F m j) /\
    let w := force_velocities (set_force m force) rho (raw_D2Q9 (om_s m) rho f) in
    no_u o = fst w /\
    forall i, (i < st_Q st)%nat ->
      no_f o i = add_relaxed (om_prefactor m) f (old_eq BGKStandard st rho (snd w)) i + pp_source m force rho (snd w) i.
Proof.
  intros Ht Hs H. unfold pp_source. unfold pp_node in H. rewrite Ht in *. cbn [stencil_of] in *. cbv zeta in H.
  apply checked_inv in H. destruct H as [Hd H]. cbv zeta. split; [assumption|].
  destruct (pp_force P (st_cs2 (D2Q9 (om_s m))) rho (fun _ => 0) (om_F m)) as [force|] eqn:EF; [|discriminate].
  pose proof (pp_force_zero _ _ _ _ _ EF) as HF.
  destruct (force_velocities (set_force m force) rho (raw_D2Q9 (om_s m) rho f)) as [w v] eqn:EW.
  injection H as <-; cbn [no_f no_rho no_u]. split; [reflexivity|]. exists force. split; [assumption|]. rewrite EW. cbn [fst snd].
  split; [reflexivity|]. intros i Hi.
  destruct (om_forceType m); [rewrite Rplus_0_r|rewrite Rplus_0_r|apply f_equal2; [|reflexivity]|rewrite Rplus_0_r];
  apply relaxed_ext, feq9_ok; assumption.
Qed.

(** The part of the impulse dt F that one visit of a node gives. *)
Definition pp_gain (m : old_model) : R := match om_forceType m with GUO => - om_prefactor m / 2 | _ => 1 end.

Lemma pp_node_effect P m rho f u o : om_t m = Stencil_D2Q9 -> om_s m <> 0 -> om_prefactor m <> 0 -> om_forceType m <> NO_FORCING ->
  pp_node P m false rho f u = Ok o ->
  let st := stencil_of (om_t m) (om_s m) in
  1 / 10^10 <= rho /\
  (forall a, (a < st_D st)%nat -> momentum st (no_f o) a = momentum st f a + pp_gain m * (om_dt m * om_F m a)) /\
  (forall a, (a < st_D st)%nat -> no_u o a = (momentum st f a + om_dt m / 2 * om_F m a) / rho) /\
  (om_s m = 1 \/ om_forceType m <> EXACT_DIFFERENCE -> mass st (no_f o) = mass st f + om_prefactor m * (mass st f - rho)).
Proof.
  intros Ht Hs Hp Hft H. destruct (pp_node_inv _ _ _ _ _ _ Ht Hs H) as [Hd [Hr [force [HF [Hu Hf]]]]].
  assert (Hc : closed_form (om_t m) = true) by (rewrite Ht; reflexivity).
  set (st := stencil_of (om_t m) (om_s m)) in *.
  assert (Est : st = D2Q9 (om_s m)) by (unfold st; rewrite Ht; reflexivity).
  assert (Hr0 : rho <> 0) by (apply dens_neq0; assumption).
  assert (Hraw : forall a, (a < st_D st)%nat -> raw_D2Q9 (om_s m) rho f a = momentum st f a / rho).
  { intros a Ha. rewrite Est in Ha |- *. apply raw9_ok; assumption. }
  assert (Hmass : forall g h k, mass st (fun i => add_relaxed k f g i + h i) = mass st f + k * (mass st f - mass st g) + mass st h).
  { intros. pose proof (relaxed_mass (om_t m) (om_s m) k f g) as E. fold st in E. rewrite <- E. unfold mass. rewrite <- sumf_plus. reflexivity. }
  assert (Hmom : forall g h k a, momentum st (fun i => add_relaxed k f g i + h i) a
                 = momentum st f a + k * (momentum st f a - momentum st g a) + momentum st h a).
  { intros. pose proof (relaxed_momentum (om_t m) (om_s m) k f g a) as E. fold st in E. rewrite <- E. unfold momentum. rewrite <- sumf_plus. apply sumf_ext. intros. ring. }
  split; [assumption|]. split; [|split].
  - intros a Ha. rewrite (momentum_ext _ _ _ _ Hf), Hmom. unfold st in Ha |- *. rewrite old_eq_momentum by assumption. fold st in Ha |- *.
    unfold force_velocities, pp_source, pp_gain. fold st. cbn [set_force om_forceType om_dt om_F om_prefactor].
    destruct (om_forceType m) eqn:EF; try congruence; cbn [snd]; rewrite (Hraw a Ha), ?HF.
    + assert (Ez : momentum st (fun _ => 0) a = 0) by (apply sumf_zero; intros; ring). rewrite Ez. field. split; assumption.
    + rewrite Est in Ha |- *. rewrite edm_momentum by assumption. rewrite HF. field. assumption.
    + assert (Ez : momentum st (fun _ => 0) a = 0) by (apply sumf_zero; intros; ring). rewrite Ez. field. assumption.
  - intros a Ha. rewrite Hu. unfold force_velocities. cbn [set_force om_forceType om_dt om_F om_prefactor].
    destruct (om_forceType m) eqn:EF; try congruence; cbn [fst]; rewrite (Hraw a Ha), ?HF; field; assumption.
  - intros Hcase. rewrite (mass_ext _ _ _ Hf), Hmass. unfold st. rewrite old_eq_mass by assumption. fold st. cbn [eq_mass].
    unfold pp_source. fold st. destruct (om_forceType m) eqn:EF; try congruence.
    + assert (Ez : mass st (fun _ => 0) = 0) by (apply sumf_zero; intros; ring). rewrite Ez. ring.
    + destruct Hcase as [Hs1|]; [|congruence]. rewrite Est. rewrite edm_mass by assumption. ring.
    + assert (Ez : mass st (fun _ => 0) = 0) by (apply sumf_zero; intros; ring). rewrite Ez. ring.
Qed.

(** ** The loop *)
Definition visits (n : nat) (dofs : list nat) : nat := count_occ Nat.eq_dec dofs n.

Section Loop.
  Variables (P : pp_parameters) (m : old_model).
  Hypothesis Ht : om_t m = Stencil_D2Q9.
  Hypothesis Hs : om_s m <> 0.
  Hypothesis Hp : om_prefactor m <> 0.
  Hypothesis Hft : om_forceType m <> NO_FORCING.
  Let st := stencil_of (om_t m) (om_s m).

  Lemma pp_loop_effect : forall dofs x x', pp_loop P m false dofs x = Ok x' ->
    fl_rho x' = fl_rho x /\ forall n,
    (visits n dofs = 0%nat -> fl_f x' n = fl_f x n /\ fl_u x' n = fl_u x n) /\
    (forall a, (a < st_D st)%nat ->
      momentum st (fl_f x' n) a = momentum st (fl_f x n) a + INR (visits n dofs) * (pp_gain m * (om_dt m * om_F m a))) /\
    (forall a, (a < st_D st)%nat -> (0 < visits n dofs)%nat ->
      fl_u x' n a = (momentum st (fl_f x n) a + (INR (visits n dofs) - 1) * (pp_gain m * (om_dt m * om_F m a)) + om_dt m / 2 * om_F m a)
        / fl_rho x n) /\
    (om_s m = 1 \/ om_forceType m <> EXACT_DIFFERENCE -> mass st (fl_f x n) = fl_rho x n -> mass st (fl_f x' n) = fl_rho x n) /\
    ((0 < visits n dofs)%nat -> 1 / 10^10 <= fl_rho x n).
  Proof.
    induction dofs as [|k rest IH]; intros x x' H.
    - injection H as <-. split; [reflexivity|]. intros n. cbn [visits count_occ].
      split; [split; reflexivity|]. split; [intros; cbn [INR]; ring|]. split; [intros; lia|]. split; [intros; assumption|]. intros; lia.
    - cbn [pp_loop] in H. destruct (pp_node P m false (fl_rho x k) (fl_f x k) (fl_u x k)) as [o| |] eqn:En; try discriminate.
      cbn [obind] in H. destruct (IH _ _ H) as [Hrho Hn]. cbn [fl_rho fl_f fl_u] in Hrho, Hn. split; [assumption|].
      destruct (pp_node_effect P m _ _ _ _ Ht Hs Hp Hft En) as [Hd [Hm [Hu Hma]]]. fold st in Hm, Hu, Hma.
      intros n. destruct (Hn n) as [H0 [H1 [H2 [H3 H4]]]]. unfold visits in *. cbn [count_occ].
      destruct (Nat.eq_dec k n) as [->|Hkn].
      + rewrite !upd_same in *. split; [lia|]. split; [|split; [|split]].
        * intros a Ha. rewrite (H1 a Ha), (Hm a Ha), S_INR. ring.
        * intros a Ha _. rewrite S_INR. destruct (Nat.eq_dec (count_occ Nat.eq_dec rest n) 0) as [E|E].
          -- destruct (H0 E) as [_ ->]. rewrite (Hu a Ha), E. cbn [INR].
             replace (0 + 1 - 1) with 0 by ring. f_equal. ring.
          -- rewrite (H2 a Ha) by lia. rewrite (Hm a Ha). f_equal. ring.
        * intros Hc E. apply H3; [assumption|]. rewrite (Hma Hc), E. ring.
        * intros _. assumption.
      + rewrite !upd_other in * by congruence. repeat split; assumption || apply H0 || idtac; auto; intros; apply H0; assumption.
  Qed.
End Loop.
