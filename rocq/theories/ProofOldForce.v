(** Forces and multiple-relaxation-time classes. *)
From Coq Require Import QArith Qreals.
From Verif Require Import Prelude StencilData MRTEntropicData ModelStencils SpecStencils SpecCollision BigSum ProofStencils
  ProofWick ModelConfigNames ModelEquilibria ModelCollision SpecSetup ProofEquilibria ProofEqMoments ProofRelax ProofCollideNode ProofCollideAll
  ModelOldCollision SpecOldCollision ProofOldCollision ProofOldNode ProofOldNode2.
Local Open Scope R_scope.

(** ** Sources of D2Q9 *)
Ltac nine := cbn [D2Q9 st_D st_Q st_cs2 st_e st_w sumf]; unfold vec; cbn [nth]; lit15.

Lemma edm_mass F u rho dt s : s = 1 -> rho <> 0 -> mass (D2Q9 s) (edm_D2Q9 F u rho dt (s / st_cs2 (D2Q9 s))) = 0.
Proof.
  intros -> Hr. unfold mass, edm_D2Q9, edm, plus, minus. cbv zeta. nine. field. assumption.
Qed.
Lemma edm_momentum F u rho dt s a : s <> 0 -> rho <> 0 -> (a < 2)%nat ->
  momentum (D2Q9 s) (edm_D2Q9 F u rho dt (s / st_cs2 (D2Q9 s))) a = dt * F a.
Proof.
  intros Hs Hr Ha. unfold momentum, edm_D2Q9, edm, plus, minus. cbv zeta.
  do 2 (destruct a as [|a]; [nine; field; split; assumption|]). lia.
Qed.
Lemma guo_mass F u omega dt s : s = 1 -> mass (D2Q9 s) (guo_D2Q9 F u omega (s / st_cs2 (D2Q9 s)) dt) = 0.
Proof. intros ->. unfold mass, guo_D2Q9. cbv zeta. nine. field. Qed.
Lemma guo_momentum F u omega dt s a : s <> 0 -> (a < 2)%nat ->
  momentum (D2Q9 s) (guo_D2Q9 F u omega (s / st_cs2 (D2Q9 s)) dt) a = (1 - 1/2 * omega) * dt * F a.
Proof.
  intros Hs Ha. unfold momentum, guo_D2Q9. cbv zeta.
  do 2 (destruct a as [|a]; [nine; field; assumption|]). lia.
Qed.

Definition source_D2Q9 (m : old_model) (rho : R) (v : nat -> R) : nat -> R :=
  let p := om_s m / st_cs2 (stencil_of (om_t m) (om_s m)) in
  match om_forceType m with
  | EXACT_DIFFERENCE => edm_D2Q9 (om_F m) v rho (om_dt m) p
  | GUO => guo_D2Q9 (om_F m) v (- om_prefactor m) p (om_dt m)
  | _ => fun _ => 0
  end.

(** What BGKStandard does with a force. *)
Lemma force_node_D2Q9 m init rho_old f u o : om_t m = Stencil_D2Q9 -> om_s m <> 0 ->
  old_node BGKStandard m init rho_old f u = Ok o ->
  let st := stencil_of (om_t m) (om_s m) in
  let v := if init then u else snd (force_velocities m (mass st f) (raw_D2Q9 (om_s m) (mass st f) f)) in
  1 / 10^10 <= mass st f /\ no_rho o = mass st f /\
  no_u o = (if init then u else fst (force_velocities m (mass st f) (raw_D2Q9 (om_s m) (mass st f) f))) /\
  forall i, (i < st_Q st)%nat ->
    no_f o i = add_relaxed (om_prefactor m) f (old_eq BGKStandard st (mass st f) v) i + source_D2Q9 m (mass st f) v i.
Proof.
  intros Ht Hs H. unfold source_D2Q9. cbn [old_node] in H. unfold node_standard in H. rewrite Ht in *. cbn [stencil_of] in *.
  unfold node_standard_D2Q9 in H. rewrite Ht in H. cbn [stencil_of] in H. apply checked_inv in H. destruct H as [Hd H].
  change (sumf 9 f) with (mass (D2Q9 (om_s m)) f) in *. split; [assumption|].
  destruct init; [|destruct (force_velocities m (mass (D2Q9 (om_s m)) f) (raw_D2Q9 (om_s m) (mass (D2Q9 (om_s m)) f) f)) as [w v]];
  injection H as <-; cbn [no_f no_rho no_u fst snd];
  (split; [reflexivity|]; split; [reflexivity|]; intros i Hi;
   destruct (om_forceType m); [rewrite Rplus_0_r|rewrite Rplus_0_r|apply f_equal2; [|reflexivity]|apply f_equal2; [|reflexivity]];
   apply relaxed_ext, feq9_ok; assumption).
Qed.

Lemma force_node_D3Q19 m rho_old f u o : om_t m = Stencil_D3Q19 -> om_s m <> 0 ->
  old_node BGKStandard m false rho_old f u = Ok o ->
  let st := stencil_of (om_t m) (om_s m) in
  let v := force_velocities m (mass st f) (raw_D3Q19 (om_s m) (mass st f) f) in
  1 / 10^10 <= mass st f /\ no_rho o = mass st f /\ no_u o = fst v /\
  forall i, (i < st_Q st)%nat -> no_f o i = add_relaxed (om_prefactor m) f (old_eq BGKStandard st (mass st f) (snd v)) i.
Proof.
  intros Ht Hs H. cbn [old_node] in H. unfold node_standard in H. rewrite Ht in *. cbn [stencil_of] in *.
  unfold node_standard_D3Q19 in H. rewrite Ht in H. cbn [stencil_of] in H. apply checked_inv in H. destruct H as [Hd H].
  change (sumf 19 f) with (mass (D3Q19 (om_s m)) f) in *. split; [assumption|].
  destruct (force_velocities m (mass (D3Q19 (om_s m)) f) (raw_D3Q19 (om_s m) (mass (D3Q19 (om_s m)) f) f)) as [w v].
  injection H as <-; cbn [no_f no_rho no_u fst snd].
  split; [reflexivity|]. split; [reflexivity|]. intros i Hi. apply relaxed_ext, feq19_ok; assumption.
Qed.

Lemma forced_momentum m rho_old f u o : om_t m = Stencil_D2Q9 -> om_s m <> 0 -> om_prefactor m <> 0 ->
  om_forceType m <> NO_FORCING ->
  old_node BGKStandard m false rho_old f u = Ok o ->
  let st := stencil_of (om_t m) (om_s m) in
  (forall a, (a < st_D st)%nat -> momentum st (no_f o) a = momentum st f a + om_dt m * om_F m a) /\
  (forall a, (a < st_D st)%nat -> no_u o a = (momentum st f a + om_dt m * om_F m a / 2) / mass st f) /\
  (om_s m = 1 \/ om_forceType m = SHIFTING_VELOCITY -> mass st (no_f o) = mass st f).
Proof.
  intros Ht Hs Hp HF H. destruct (force_node_D2Q9 _ _ _ _ _ _ Ht Hs H) as [Hd [Hr [Hu Hf]]].
  assert (Hc : closed_form (om_t m) = true) by (rewrite Ht; reflexivity).
  set (st := stencil_of (om_t m) (om_s m)) in *.
  assert (Est : st = D2Q9 (om_s m)) by (unfold st; rewrite Ht; reflexivity).
  assert (Hr0 : mass st f <> 0) by (apply dens_neq0; assumption).
  assert (Hraw : forall a, (a < st_D st)%nat -> raw_D2Q9 (om_s m) (mass st f) f a = momentum st f a / mass st f).
  { intros a Ha. rewrite Est in Ha |- *. apply raw9_ok; [rewrite <- Est|]; assumption. }
  assert (Hmass : forall g h k, mass st (fun i => add_relaxed k f g i + h i) = mass st f + k * (mass st f - mass st g) + mass st h).
  { intros. pose proof (relaxed_mass (om_t m) (om_s m) k f g) as E. fold st in E. rewrite <- E. unfold mass. rewrite <- sumf_plus. reflexivity. }
  assert (Hmom : forall g h k a, momentum st (fun i => add_relaxed k f g i + h i) a
                 = momentum st f a + k * (momentum st f a - momentum st g a) + momentum st h a).
  { intros. pose proof (relaxed_momentum (om_t m) (om_s m) k f g a) as E. fold st in E. rewrite <- E. unfold momentum. rewrite <- sumf_plus. apply sumf_ext. intros. ring. }
  split; [|split].
  - intros a Ha. rewrite (momentum_ext _ _ _ _ Hf), Hmom. unfold st in Ha |- *. rewrite old_eq_momentum by assumption. fold st in Ha |- *.
    unfold force_velocities, source_D2Q9. fold st. destruct (om_forceType m) eqn:EF; try congruence; cbn [snd]; rewrite (Hraw a Ha).
    + assert (Ez : momentum st (fun _ => 0) a = 0) by (apply sumf_zero; intros; ring). rewrite Ez. field. split; assumption.
    + rewrite Est in Ha |- *. rewrite edm_momentum by (try rewrite <- Est; assumption). field. rewrite <- Est. assumption.
    + rewrite Est in Ha |- *. rewrite guo_momentum by assumption. field. rewrite <- Est. assumption.
  - intros a Ha. rewrite Hu. unfold force_velocities. destruct (om_forceType m) eqn:EF; try congruence; cbn [fst]; rewrite (Hraw a Ha); field; assumption.
  - intros Hcase. rewrite (mass_ext _ _ _ Hf), Hmass. unfold st. rewrite old_eq_mass by assumption. fold st. cbn [eq_mass].
    unfold source_D2Q9. fold st. destruct (om_forceType m) eqn:EF; try congruence.
    + assert (Ez : mass st (fun _ => 0) = 0) by (apply sumf_zero; intros; ring). rewrite Ez. ring.
    + destruct Hcase as [Hs1|]; [|congruence]. rewrite Est. rewrite edm_mass by (try assumption; rewrite <- Est; assumption). ring.
    + destruct Hcase as [Hs1|]; [|congruence]. rewrite Est. rewrite guo_mass by assumption. ring.
Qed.

Lemma forced_momentum_3d m rho_old f u o : om_t m = Stencil_D3Q19 -> om_s m <> 0 -> om_prefactor m <> 0 ->
  old_node BGKStandard m false rho_old f u = Ok o ->
  let st := stencil_of (om_t m) (om_s m) in
  mass st (no_f o) = mass st f /\
  forall a, (a < st_D st)%nat ->
    momentum st (no_f o) a = momentum st f a +
      match om_forceType m with
      | SHIFTING_VELOCITY => om_dt m * om_F m a
      | GUO => - om_prefactor m / 2 * (om_dt m * om_F m a)
      | _ => 0
      end.
Proof.
  intros Ht Hs Hp H. destruct (force_node_D3Q19 _ _ _ _ _ Ht Hs H) as [Hd [Hr [Hu Hf]]].
  assert (Hc : closed_form (om_t m) = true) by (rewrite Ht; reflexivity).
  set (st := stencil_of (om_t m) (om_s m)) in *.
  assert (Est : st = D3Q19 (om_s m)) by (unfold st; rewrite Ht; reflexivity).
  assert (Hr0 : mass st f <> 0) by (apply dens_neq0; assumption).
  assert (Hraw : forall a, (a < st_D st)%nat -> raw_D3Q19 (om_s m) (mass st f) f a = momentum st f a / mass st f).
  { intros a Ha. rewrite Est in Ha |- *. apply raw19_ok; [rewrite <- Est|]; assumption. }
  split.
  - rewrite (mass_ext _ _ _ Hf). unfold st. rewrite relaxed_mass, old_eq_mass by assumption. cbn [eq_mass]. ring.
  - intros a Ha. rewrite (momentum_ext _ _ _ _ Hf). unfold st in Ha |- *. rewrite relaxed_momentum, old_eq_momentum by assumption. fold st in Ha |- *.
    unfold force_velocities. destruct (om_forceType m); cbn [snd]; rewrite (Hraw a Ha); field; try split; assumption.
Qed.

(** ** MRT classes on D2Q9 *)
Lemma back_mass s n : mass (D2Q9 s) (mrt_back n) = 9 * n 0%nat.
Proof. unfold mass, mrt_back. nine. field. Qed.
Lemma back_momentum s n a : (a < 2)%nat -> momentum (D2Q9 s) (mrt_back n) a = s * (6 * match a with O => n 3%nat | _ => n 5%nat end).
Proof.
  intros Ha. unfold momentum, mrt_back. do 2 (destruct a as [|a]; [nine; field|]). lia.
Qed.
Lemma moments_momentum s f a : (a < 2)%nat ->
  momentum (D2Q9 s) f a = s * match a with O => mrt_moments f 3%nat | _ => mrt_moments f 5%nat end.
Proof.
  intros Ha. unfold momentum, mrt_moments. do 2 (destruct a as [|a]; [nine; field|]). lia.
Qed.

Lemma mrt_standard_conserves m rho_old f u o : om_t m = Stencil_D2Q9 ->
  old_node MRTStandard m false rho_old f u = Ok o ->
  let st := stencil_of (om_t m) (om_s m) in
  conserves st f (no_f o) /\ stores_moments st f (no_rho o) (no_u o).
Proof.
  intros Ht H. rewrite Ht. cbn [stencil_of]. cbv zeta. cbn [old_node] in H. unfold node_mrt_standard in H. rewrite Ht in H. cbv zeta in H.
  change (sumf 9 f) with (mass (D2Q9 (om_s m)) f) in H. destruct (Req_EM_T _ 0) as [|Hr]; [discriminate|].
  injection H as <-. cbn [no_f no_rho no_u]. repeat split.
  - rewrite back_mass. change (mrt_moments f 0) with (sumf 9 f). unfold mrt_rates, MRTWeights, vec. cbn [nth].
    unfold mass. cbn [D2Q9 st_Q]. field.
  - intros a Ha. rewrite back_momentum, (moments_momentum _ f) by assumption. unfold mrt_rates, MRTWeights, vec. cbn [nth].
    destruct a as [|a]; field.
  - intros a Ha. apply raw9_ok; assumption.
Qed.

Lemma mrt_entropic_conserves m rho_old f u o : om_t m = Stencil_D2Q9 ->
  old_node MRTEntropic m false rho_old f u = Ok o ->
  let st := stencil_of (om_t m) (om_s m) in
  conserves st f (no_f o) /\ stores_moments st f (no_rho o) (no_u o).
Proof.
  intros Ht H. rewrite Ht. cbn [stencil_of]. cbv zeta. cbn [old_node] in H. unfold node_mrt_entropic in H. rewrite Ht in H.
  unfold node_mrt_entropic_D2Q9 in H. apply checked_inv in H. destruct H as [_ H]. cbv zeta in H.
  change (mrt_moments f 0) with (mass (D2Q9 (om_s m)) f) in H. destruct (Req_EM_T _ 0) as [|Hr]; [discriminate|].
  injection H as <-. cbn [no_f no_rho no_u]. repeat split.
  - rewrite back_mass. unfold MRTWeights, vec. cbn [nth]. field.
  - intros a Ha. rewrite back_momentum, (moments_momentum _ f) by assumption. unfold MRTWeights, vec. cbn [nth]. destruct a; field.
  - intros a Ha. rewrite (moments_momentum _ f) by assumption. cbn [D2Q9 st_D] in Ha. unfold vec. destruct a as [|[|a]]; cbn [nth]; [field|field|lia]; assumption.
Qed.

(** The equilibrium of density one is a fixed point. *)
Lemma mrt_roundtrip f i : (i < 9)%nat -> mrt_back (fun j => mrt_moments f j / MRTWeights j) i = f i.
Proof.
  intros Hi. unfold mrt_back, mrt_moments, MRTWeights. cbn [sumf].
  do 9 (destruct i as [|i]; [unfold vec; cbn [nth]; field|]). lia.
Qed.

Lemma eq_moments s u j : s <> 0 -> (j < 9)%nat ->
  mrt_moments (old_eq MRTStandard (D2Q9 s) 1 u) j = mrt_meq 1 (u 0%nat / s) (u 1%nat / s) j.
Proof.
  intros Hs Hj. unfold mrt_moments, mrt_meq, old_eq, sp. cbv zeta.
  do 9 (destruct j as [|j]; [nine; field; assumption|]). lia.
Qed.
