(** Witnesses for the iterative initialisation and the initialisation from gradients. *)
From Coq Require Import QArith Qreals.
From Verif Require Import Prelude StencilData MRTEntropicData ModelStencils SpecStencils SpecCollision BigSum ProofStencils
  ProofWick ModelConfigNames ModelEquilibria ModelCollision SpecSetup ProofEquilibria ProofEqMoments ProofRelax ProofCollideNode ProofCollideAll ProofFixed
  ModelOldCollision SpecOldCollision ProofOldCollision ProofOldNode ProofOldNode2 ProofOldForce ProofOldLoop ProofOldMore ProofOldRefuted ProofOldRefuted2.
Local Open Scope R_scope.

(** ** Number of iterations *)

(** Streaming on two nodes of a periodic line along x (the y direction has one node). *)
Definition line_stream (f : nat -> nat -> R) (n i : nat) : R :=
  match i with
  | 0%nat | 2%nat | 4%nat => f n i
  | _ => f (1 - n)%nat i
  end.

(** Fluid at rest with densities [a] and [b]. *)
Definition resting (a b : R) (s : fields) : Prop :=
  fl_rho s 0%nat = a /\ fl_rho s 1%nat = b /\ fl_u s 0%nat = zero /\ fl_u s 1%nat = zero /\
  (forall i, (i < 9)%nat -> fl_f s 0%nat i = a * st_w (D2Q9 1) i) /\ (forall i, (i < 9)%nat -> fl_f s 1%nat i = b * st_w (D2Q9 1) i).

Lemma rest_eq rho i : (i < 9)%nat -> old_eq BGKStandard (D2Q9 1) rho zero i = rho * st_w (D2Q9 1) i.
Proof. intros Hi. unfold old_eq, sp, zero. cbv zeta. cbn [D2Q9 st_D st_cs2 sumf]. destruct i; field. Qed.

Lemma line_step a b s : 0 < a -> 0 < b -> 1 / 10^10 <= 2/3 * a + 1/3 * b -> 1 / 10^10 <= 1/3 * a + 2/3 * b -> resting a b s ->
  exists s', old_collideAll BGKStandard (unit_model Stencil_D2Q9) true [0%nat; 1%nat] {| fl_f := line_stream (fl_f s); fl_rho := fl_rho s; fl_u := fl_u s |} = Ok s' /\
    resting (2/3 * a + 1/3 * b) (1/3 * a + 2/3 * b) s'.
Proof.
  intros Ha Hb Hab Hba (R0 & R1 & U0 & U1 & F0 & F1). set (s1 := {| fl_f := line_stream (fl_f s); fl_rho := fl_rho s; fl_u := fl_u s |}).
  assert (M0 : sumf 9 (fl_f s1 0%nat) = 2/3 * a + 1/3 * b).
  { cbn [s1 fl_f sumf line_stream]. cbn [Nat.sub]. rewrite !F0, !F1 by lia. nine. lra. }
  assert (M1 : sumf 9 (fl_f s1 1%nat) = 1/3 * a + 2/3 * b).
  { cbn [s1 fl_f sumf line_stream]. cbn [Nat.sub]. rewrite !F0, !F1 by lia. nine. lra. }
  assert (Hc : plain_bgk BGKStandard (unit_model Stencil_D2Q9)) by reflexivity.
  assert (Hs1 : om_s (unit_model Stencil_D2Q9) <> 0) by (cbn; lra).
  assert (Nd : NoDup [0%nat; 1%nat]) by (repeat constructor; cbn; lia).
  destruct (old_loop_runs BGKStandard (unit_model Stencil_D2Q9) true [0%nat; 1%nat] s1 Nd) as [s' E].
  { intros n Hn. apply bgk_runs; [exact Hc|]. cbn [In] in Hn. destruct Hn as [<-|[<-|[]]]; (split; cbn [unit_model old_new om_t om_s stencil_of]).
    - change (mass (D2Q9 1) (fl_f s1 0%nat)) with (sumf 9 (fl_f s1 0%nat)). rewrite M0. exact Hab.
    - change (mass (D2Q9 1) (fl_f s1 0%nat)) with (sumf 9 (fl_f s1 0%nat)). cbn [s1 fl_u]. rewrite M0, U0. apply asserts_ok; unfold zero; lra.
    - change (mass (D2Q9 1) (fl_f s1 1%nat)) with (sumf 9 (fl_f s1 1%nat)). rewrite M1. exact Hba.
    - change (mass (D2Q9 1) (fl_f s1 1%nat)) with (sumf 9 (fl_f s1 1%nat)). cbn [s1 fl_u]. rewrite M1, U1. apply asserts_ok; unfold zero; lra. }
  exists s'. split; [unfold old_collideAll; exact E|].
  destruct (old_loop_ok _ _ _ _ _ _ Nd E) as [On _].
  destruct (On 0%nat) as (o0 & E0 & A0 & B0 & C0); [cbn; tauto|]. destruct (On 1%nat) as (o1 & E1 & A1 & B1 & C1); [cbn; tauto|].
  destruct (bgk_node _ _ _ _ _ _ _ Hc Hs1 E0) as (_ & P0 & Q0 & X0). destruct (bgk_node _ _ _ _ _ _ _ Hc Hs1 E1) as (_ & P1 & Q1 & X1).
  cbn [unit_model old_new om_t om_s om_prefactor stencil_of] in *. change (st_Q (D2Q9 1)) with 9%nat in *.
  change (mass (D2Q9 1) (fl_f s1 0%nat)) with (sumf 9 (fl_f s1 0%nat)) in *. change (mass (D2Q9 1) (fl_f s1 1%nat)) with (sumf 9 (fl_f s1 1%nat)) in *.
  rewrite M0 in *. rewrite M1 in *. cbn [s1 fl_u] in Q0, Q1. rewrite U0 in Q0. rewrite U1 in Q1. unfold resting.
  rewrite A0, A1, B0, B1, C0, C1. repeat split; try assumption.
  - intros i Hi. rewrite X0, Q0 by exact Hi. unfold add_relaxed. rewrite rest_eq by exact Hi. field.
  - intros i Hi. rewrite X1, Q1 by exact Hi. unfold add_relaxed. rewrite rest_eq by exact Hi. field.
Qed.

Definition two_densities : fields := {| fl_f := fun _ _ => 0; fl_rho := fun n => match n with O => 1 | _ => 2 end; fl_u := fun _ => zero |}.

Lemma line_residual a b s a' b' s' : resting a b s -> resting a' b' s' ->
  init_residual [0%nat; 1%nat] (fl_rho s) (fl_rho s') = (a - a') * (a - a') + ((b - b') * (b - b') + 0).
Proof. intros (A & B & _) (E & F & _). unfold init_residual. cbn [map fold_right]. rewrite A, B, E, F. reflexivity. Qed.

Lemma two_iterations : exists s', init_iterative BGKStandard (unit_model Stencil_D2Q9) [0%nat; 1%nat] line_stream (1 / 10^7) 1 3 two_densities = Some (Ok (s', 2%nat)).
Proof.
  unfold init_iterative. cbn [unit_model old_new om_t om_s stencil_of init_equilibrium two_densities fl_rho fl_u]. fold (old_new Stencil_D2Q9 1 (1/2) 1). fold (unit_model Stencil_D2Q9).
  rewrite !equilibrium_ok by (unfold zero; lra). cbn [obind fl_f fl_rho fl_u].
  match goal with |- context [iterate _ _ _ _ _ _ _ _ _ ?x] => set (s0 := x) end.
  assert (R0 : resting 1 2 s0). { repeat split; intros i Hi; cbn [s0 fl_f]; unfold upd; cbn [Nat.eqb]; apply rest_eq; exact Hi. }
  clearbody s0. change 3%nat with (S (S (S 0))). cbn [iterate].
  destruct (Rlt_dec (1/10^7) 1000000000) as [_|X]; [|lra]. cbn [Nat.ltb Nat.leb].
  destruct (line_step 1 2 s0) as (s1 & E1 & R1); try lra; [exact R0|]. rewrite E1. rewrite (line_residual _ _ _ _ _ _ R0 R1).
  destruct (Rlt_dec (1/10^7) _) as [_|X]; [|lra].
  destruct (line_step (2/3 * 1 + 1/3 * 2) (1/3 * 1 + 2/3 * 2) s1) as (s2 & E2 & R2); try lra; [exact R1|]. rewrite E2. rewrite (line_residual _ _ _ _ _ _ R1 R2).
  destruct (Rlt_dec (1/10^7) _) as [_|X]; [|lra]. exists s2. reflexivity.
Qed.

(** ** Prescribed velocity *)
Definition with_velocity (u : nat -> R) (x : outcome node_out) : outcome node_out :=
  match x with Ok o => Ok {| no_f := no_f o; no_rho := no_rho o; no_u := u |} | Throw => Throw | UB => UB end.

Lemma with_checked u rho x : with_velocity u (checked rho x) = checked rho (with_velocity u x).
Proof. unfold checked. destruct (Rlt_dec _ _); reflexivity. Qed.
Lemma with_if u (rho : R) (x : outcome node_out) : with_velocity u (if Req_EM_T rho 0 then UB else x) = if Req_EM_T rho 0 then UB else with_velocity u x.
Proof. destruct (Req_EM_T rho 0); reflexivity. Qed.

Lemma entropic_velocity m rho_old f u u' : node_mrt_entropic_D3Q19 m true rho_old f u' = with_velocity u' (node_mrt_entropic_D3Q19 m true rho_old f u).
Proof. unfold node_mrt_entropic_D3Q19. rewrite with_checked. f_equal. rewrite with_if. reflexivity. Qed.

Lemma mrt_ignores_velocity c m rho_old f u u' o : c = MRTStandard \/ c = MRTEntropic -> old_node c m true rho_old f u = Ok o ->
  exists o', old_node c m true rho_old f u' = Ok o' /\ no_f o' = no_f o /\ no_rho o' = no_rho o.
Proof.
  intros [-> | ->]; cbn [old_node].
  - unfold node_mrt_standard. destruct (om_t m); try discriminate. cbv zeta. destruct (Req_EM_T _ 0); [discriminate|]. intros H. injection H as <-. eexists; repeat split.
  - unfold node_mrt_entropic. destruct (om_t m); try discriminate; intros H.
    + unfold node_mrt_entropic_D2Q9 in *; cbv zeta in *; apply checked_inv in H; destruct H as [Hd H];
      rewrite checked_ok by exact Hd; (destruct (Req_EM_T _ 0); [discriminate|]); injection H as <-; eexists; repeat split.
    + rewrite (entropic_velocity m rho_old f u u'), H. cbn [with_velocity]. eexists; repeat split.
Qed.

Lemma mrt_init_momentum : exists o, old_node MRTStandard (unit_model Stencil_D2Q9) true 2 lump drift = Ok o /\
  momentum (D2Q9 1) (no_f o) 0 = 0 /\ no_rho o * drift 0%nat <> 0.
Proof.
  assert (Es : sumf 9 lump = 2) by (unfold lump; nine; lra).
  assert (Ho : exists o, old_node MRTStandard (unit_model Stencil_D2Q9) false 2 lump drift = Ok o).
  { cbn [old_node]. unfold node_mrt_standard, unit_model, old_new. cbn [om_t]. cbv zeta. rewrite Es. destruct (Req_EM_T 2 0); [lra|]. eexists; reflexivity. }
  destruct Ho as [o Ho]. destruct (mrt_standard_conserves (unit_model Stencil_D2Q9) _ _ _ _ eq_refl Ho) as [[Hm Hj] [Hr _]].
  cbn [unit_model old_new om_t om_s stencil_of] in *.
  cbn [old_node] in *. unfold node_mrt_standard in *. cbn [om_t] in *. cbv zeta in *. rewrite Es in *. destruct (Req_EM_T 2 0); [lra|].
  eexists; split; [reflexivity|]. injection Ho as <-. cbn [no_f no_rho] in *. split.
  - rewrite Hj by (cbn; lia). unfold momentum, lump. nine. lra.
  - unfold drift, vec. cbn [nth]. lra.
Qed.

(** The three-dimensional regularized collision reads variables that were not set. *)
Lemma regularized_init_ub m rho_old f u : om_t m = Stencil_D3Q19 -> 1 / 10^10 <= mass (stencil_of (om_t m) (om_s m)) f -> old_node BGKRegularized m true rho_old f u = UB.
Proof.
  intros Ht Hd. cbn [old_node]. unfold node_regularized. rewrite Ht in *. unfold node_regularized_D3Q19. rewrite checked_ok by exact Hd. reflexivity.
Qed.

Lemma init_iterative_ub m n rest stream target N fuel s s0 : om_t m = Stencil_D3Q19 -> target < 1000000000 ->
  init_equilibrium BGKRegularized (stencil_of (om_t m) (om_s m)) (n :: rest) s = Ok s0 ->
  1 / 10^10 <= mass (stencil_of (om_t m) (om_s m)) (stream (fl_f s0) n) ->
  init_iterative BGKRegularized m (n :: rest) stream target N (S fuel) s = Some UB.
Proof.
  intros Ht Htg E Hd. unfold init_iterative. rewrite E. cbn [iterate]. destruct (Rlt_dec target 1000000000); [|lra]. cbn [Nat.ltb Nat.leb].
  unfold old_collideAll. replace (old_supported BGKRegularized (om_t m)) with true by (rewrite Ht; reflexivity).
  cbn [old_loop fl_f fl_rho fl_u]. rewrite regularized_init_ub by assumption. reflexivity.
Qed.

(** Forces act during the iterations. *)
Lemma init_forced m rho_old f u o : om_t m = Stencil_D2Q9 -> om_s m <> 0 -> old_node BGKStandard m true rho_old f u = Ok o ->
  let st := stencil_of (om_t m) (om_s m) in
  forall a, (a < st_D st)%nat -> momentum st (no_f o) a - mass st f * u a = (1 + om_prefactor m) * (momentum st f a - mass st f * u a) +
    match om_forceType m with EXACT_DIFFERENCE => om_dt m * om_F m a | GUO => (1 + om_prefactor m / 2) * (om_dt m * om_F m a) | _ => 0 end.
Proof.
  intros Ht Hs H. destruct (force_node_D2Q9 _ _ _ _ _ _ Ht Hs H) as [Hd [Hr [Hu Hf]]].
  assert (Hc : closed_form (om_t m) = true) by (rewrite Ht; reflexivity). cbv zeta. cbv zeta in Hf.
  set (st := stencil_of (om_t m) (om_s m)) in *. assert (Est : st = D2Q9 (om_s m)) by (unfold st; rewrite Ht; reflexivity).
  assert (Hr0 : mass st f <> 0) by (apply dens_neq0; assumption).
  assert (Hmom : forall g h k a, momentum st (fun i => add_relaxed k f g i + h i) a
                 = momentum st f a + k * (momentum st f a - momentum st g a) + momentum st h a).
  { intros. pose proof (relaxed_momentum (om_t m) (om_s m) k f g a) as E. fold st in E. rewrite <- E. unfold momentum. rewrite <- sumf_plus. apply sumf_ext. intros. ring. }
  intros a Ha. rewrite (momentum_ext _ _ _ _ Hf), Hmom. unfold st in Ha |- *. rewrite old_eq_momentum by assumption. fold st in Ha |- *.
  assert (Ez : momentum st (fun _ => 0) a = 0) by (apply sumf_zero; intros; ring).
  unfold source_D2Q9. fold st. destruct (om_forceType m).
  - rewrite Ez. ring.
  - rewrite Ez. ring.
  - rewrite Est in Ha |- *. rewrite edm_momentum by (try rewrite <- Est; assumption). ring.
  - rewrite Est in Ha |- *. rewrite guo_momentum by assumption. field.
Qed.
