(** collideAll of the initialisation objects, the initialisation, and changes of the time step. *)
From Coq Require Import QArith Qreals.
From Verif Require Import Prelude StencilData MRTEntropicData ModelStencils SpecStencils SpecCollision BigSum ProofStencils
  ProofWick ModelConfigNames ModelEquilibria ModelCollision SpecSetup ProofEquilibria ProofEqMoments ProofRelax ProofCollideNode ProofCollideAll
  ModelOldCollision SpecOldCollision ProofOldCollision ProofOldNode ProofOldNode2 ProofOldForce.
Local Open Scope R_scope.

(** ** Node by node *)
Lemma old_loop_ok c m init nodes : forall s s', NoDup nodes ->
  old_loop c m init nodes s = Ok s' ->
  (forall n, In n nodes -> exists o, old_node c m init (fl_rho s n) (fl_f s n) (fl_u s n) = Ok o /\
     fl_f s' n = no_f o /\ fl_rho s' n = no_rho o /\ fl_u s' n = no_u o) /\
  (forall n, ~ In n nodes -> untouched s s' n).
Proof.
  induction nodes as [|k rest IH]; intros s s' Hnd H; cbn [old_loop] in H.
  - injection H as <-. split; [intros n []|intros; repeat split].
  - destruct (old_node c m init (fl_rho s k) (fl_f s k) (fl_u s k)) as [o| |] eqn:Ho; try discriminate. cbn [obind] in H.
    inversion Hnd as [|k' r' Hk Hnd']; subst.
    destruct (IH _ _ Hnd' H) as [H1 H2]. split.
    + intros n [<- | Hn].
      * destruct (H2 k Hk) as [E1 [E2 E3]]. cbn [fl_f fl_rho fl_u] in *. rewrite upd_same in E1; rewrite upd_same in E2; rewrite upd_same in E3.
        exists o. auto.
      * assert (Hne : n <> k) by (intros ->; contradiction).
        destruct (H1 n Hn) as [o' [Ho' [E1 [E2 E3]]]]. cbn [fl_f fl_u fl_rho] in Ho'.
        rewrite (upd_other (fl_f s)), (upd_other (fl_u s)), (upd_other (fl_rho s)) in Ho' by assumption. exists o'. auto.
    + intros n Hn. assert (Hne : n <> k) by (intros ->; apply Hn; left; reflexivity).
      destruct (H2 n (fun Hx => Hn (or_intror Hx))) as [E1 [E2 E3]]. cbn [fl_f fl_rho fl_u] in *.
      rewrite upd_other in E1 by assumption; rewrite upd_other in E2 by assumption; rewrite upd_other in E3 by assumption. repeat split; assumption.
Qed.

Lemma old_loop_runs c m init nodes : forall s, NoDup nodes ->
  (forall n, In n nodes -> exists o, old_node c m init (fl_rho s n) (fl_f s n) (fl_u s n) = Ok o) ->
  exists s', old_loop c m init nodes s = Ok s'.
Proof.
  induction nodes as [|k rest IH]; intros s Hnd H; cbn [old_loop].
  - exists s. reflexivity.
  - destruct (H k (or_introl eq_refl)) as [o Ho]. rewrite Ho. cbn [obind].
    inversion Hnd as [|k' r' Hk Hnd']; subst. apply IH; [assumption|].
    intros n Hn. assert (Hne : n <> k) by (intros ->; contradiction). cbn [fl_f fl_u fl_rho].
    rewrite (upd_other (fl_f s)), (upd_other (fl_u s)), (upd_other (fl_rho s)) by assumption. apply H. right. assumption.
Qed.

Lemma old_all_ok c m init nodes s s' : NoDup nodes -> old_collideAll c m init nodes s = Ok s' ->
  (forall n, In n nodes -> exists o, old_node c m init (fl_rho s n) (fl_f s n) (fl_u s n) = Ok o /\
     fl_f s' n = no_f o /\ fl_rho s' n = no_rho o /\ fl_u s' n = no_u o) /\
  (forall n, ~ In n nodes -> untouched s s' n).
Proof.
  intros Hnd H. unfold old_collideAll in H. destruct (old_supported _ _); [|discriminate]. apply (old_loop_ok c m init); assumption.
Qed.

(** ** Equilibrium initialisation *)
Lemma init_equilibrium_ok c st nodes : forall s s', NoDup nodes -> init_equilibrium c st nodes s = Ok s' ->
  fl_rho s' = fl_rho s /\ fl_u s' = fl_u s /\
  (forall n, In n nodes -> getEquilibriumDistributions c st (fl_rho s n) (fl_u s n) = Ok (fl_f s' n)) /\
  (forall n, ~ In n nodes -> fl_f s' n = fl_f s n).
Proof.
  induction nodes as [|k rest IH]; intros s s' Hnd H; cbn [init_equilibrium] in H.
  - injection H as <-. repeat split; intros n [].
  - destruct (getEquilibriumDistributions c st (fl_rho s k) (fl_u s k)) as [g| |] eqn:Hg; try discriminate. cbn [obind] in H.
    inversion Hnd as [|k' r' Hk Hnd']; subst. destruct (IH _ _ Hnd' H) as [H1 [H2 [H3 H4]]]. cbn [fl_f fl_rho fl_u] in *.
    split; [assumption|]. split; [assumption|]. split.
    + intros n [<- | Hn]; [|apply H3; assumption]. rewrite (H4 k Hk), upd_same. assumption.
    + intros n Hn. rewrite (H4 n (fun Hx => Hn (or_intror Hx))), upd_other; [reflexivity|]. intros ->. apply Hn. left. reflexivity.
Qed.

Lemma init_equilibrium_runs c st nodes : forall s,
  (forall n, In n nodes -> eq_asserts (fl_rho s n) (fl_u s n) = true) -> exists s', init_equilibrium c st nodes s = Ok s'.
Proof.
  induction nodes as [|k rest IH]; intros s H; cbn [init_equilibrium]; [eexists; reflexivity|].
  unfold getEquilibriumDistributions. rewrite (H k (or_introl eq_refl)). cbn [obind]. apply IH. intros n Hn. apply H. right. assumption.
Qed.

(** ** Iterative initialisation *)
Lemma init_keeps_velocity c m rho_old f u o : old_node c m true rho_old f u = Ok o -> no_u o = u.
Proof.
  intros H. destruct c; cbn [old_node] in H.
  - unfold node_standard, node_standard_D2Q9, node_standard_D3Q19, node_standard_D3Q15, node_generic in H. cbv zeta in H.
    destruct (om_t m); apply checked_inv in H; destruct H as [_ H];
      first [injection H as <-; reflexivity | destruct (getEquilibriumDistributions _ _ _ _); try discriminate; injection H as <-; reflexivity].
  - unfold node_steady, node_generic in H. cbv zeta in H.
    destruct (om_t m); apply checked_inv in H; destruct H as [_ H];
      first [injection H as <-; reflexivity | destruct (getEquilibriumDistributions _ _ _ _); try discriminate; injection H as <-; reflexivity].
  - unfold node_transformed, node_generic in H. cbv zeta in H.
    destruct (om_t m); apply checked_inv in H; destruct H as [_ H];
      first [injection H as <-; reflexivity | destruct (getEquilibriumDistributions _ _ _ _); try discriminate; injection H as <-; reflexivity].
  - unfold node_incompressible in H. cbv zeta in H. destruct (om_t m); try discriminate. apply checked_inv in H; destruct H as [_ H]. injection H as <-; reflexivity.
  - unfold node_regularized, node_regularized_D2Q9, node_regularized_D3Q19 in H. cbv zeta in H.
    destruct (om_t m); try discriminate; apply checked_inv in H; destruct H as [_ H]; [injection H as <-; reflexivity|discriminate].
  - unfold node_mrt_standard in H. cbv zeta in H. destruct (om_t m); try discriminate. destruct (Req_EM_T _ 0); [discriminate|]. injection H as <-; reflexivity.
  - unfold node_mrt_entropic, node_mrt_entropic_D2Q9, node_mrt_entropic_D3Q19 in H. cbv zeta in H.
    destruct (om_t m); try discriminate; apply checked_inv in H; destruct H as [_ H];
    (destruct (Req_EM_T _ 0); [discriminate|]; injection H as <-; reflexivity).
Qed.

Section Iter.
  Variables (c : old_class) (m : old_model) (nodes : list nat).
  Variable stream : (nat -> nat -> R) -> (nat -> nat -> R).
  Variables (target : R) (N : nat).

  Lemma iterate_terminates : forall fuel k res s, (k <= N + 1)%nat -> (N + 2 <= fuel + k)%nat ->
    iterate c m nodes stream target N fuel k res s <> None.
  Proof.
    induction fuel as [|fuel IH]; intros k res s Hk Hf; cbn [iterate]; [lia|].
    destruct (Rlt_dec target res); [|discriminate]. destruct (Nat.ltb N k) eqn:E; [discriminate|]. apply Nat.ltb_ge in E.
    destruct (old_collideAll _ _ _ _ _); try discriminate. apply IH; lia.
  Qed.

  (** An invariant kept by streaming followed by collision in initialisation mode. *)
  Lemma iterate_inv (I : fields -> Prop) :
    (forall s s', I s -> old_collideAll c m true nodes {| fl_f := stream (fl_f s); fl_rho := fl_rho s; fl_u := fl_u s |} = Ok s' -> I s') ->
    forall fuel k res s s' k', (k <= N + 1)%nat -> I s -> iterate c m nodes stream target N fuel k res s = Some (Ok (s', k')) ->
    I s' /\ (k' <= N + 1)%nat.
  Proof.
    intros Hstep. induction fuel as [|fuel IH]; intros k res s s' k' Hk HI H; cbn [iterate] in H; [discriminate|].
    destruct (Rlt_dec target res).
    - destruct (Nat.ltb N k) eqn:E.
      + assert (s = s' /\ k = k') as [-> ->] by (split; congruence). split; assumption.
      + apply Nat.ltb_ge in E. destruct (old_collideAll _ _ _ _ _) as [s2| |] eqn:Hc; try discriminate.
        refine (IH (S k) _ s2 s' k' _ _ H); [lia|apply (Hstep s); assumption].
    - assert (s = s' /\ k = k') as [-> ->] by (split; congruence). split; assumption.
  Qed.

  Lemma init_terminates s : init_iterative c m nodes stream target N (N + 2) s <> None.
  Proof.
    unfold init_iterative. destruct (init_equilibrium _ _ _ _); try discriminate. apply iterate_terminates; lia.
  Qed.

  Lemma init_velocity fuel s s' k : NoDup nodes -> init_iterative c m nodes stream target N fuel s = Some (Ok (s', k)) ->
    (k <= N + 1)%nat /\ forall n, fl_u s' n = fl_u s n.
  Proof.
    intros Hnd H. unfold init_iterative in H. destruct (init_equilibrium _ _ _ _) as [s0| |] eqn:H0; try discriminate.
    destruct (init_equilibrium_ok _ _ _ _ _ Hnd H0) as [_ [Hu _]].
    destruct (iterate_inv (fun x => forall n, fl_u x n = fl_u s n)) with (2 := Nat.le_0_l (N + 1)) (4 := H) as [HI Hk]; [| |split; assumption].
    - intros x y Hx Hy n. destruct (old_all_ok _ _ _ _ _ _ Hnd Hy) as [H1 H2]. cbn [fl_f fl_u fl_rho] in *.
      destruct (in_dec Nat.eq_dec n nodes) as [Hn|Hn].
      + destruct (H1 n Hn) as [o [Ho [_ [_ ->]]]]. rewrite (init_keeps_velocity _ _ _ _ _ _ Ho). apply Hx.
      + destruct (H2 n Hn) as [_ [_ ->]]. apply Hx.
    - intros n. rewrite Hu. reflexivity.
  Qed.
End Iter.

Lemma init_step c m rho_old f u o : init_class c m -> closed_form (om_t m) = true -> om_s m <> 0 ->
  old_node c m true rho_old f u = Ok o ->
  let st := stencil_of (om_t m) (om_s m) in
  mass st (no_f o) = mass st f /\ no_rho o = mass st f /\
  (plain_bgk c m -> forall a, (a < st_D st)%nat ->
     momentum st (no_f o) a - mass st (no_f o) * u a = (1 + om_prefactor m) * (momentum st f a - mass st f * u a)) /\
  (c = BGKRegularized -> forall a, (a < st_D st)%nat -> momentum st (no_f o) a = mass st (no_f o) * u a).
Proof.
  intros Hc Ht Hs H st. destruct Hc as [Hc|[-> Hc]].
  - pose proof (bgk_node _ _ _ _ _ _ _ Hc Hs H) as Hn.
    assert (Hnt : c <> BGKStandardTransformed) by (intros ->; contradiction).
    split; [apply (relaxed_node_mass c m f u o Ht Hs Hnt true Hn)|].
    split; [destruct Hn as [_ [Hn _]]; exact Hn|]. split.
    + intros _ a Ha. apply (relaxed_node_init c m f u o Ht Hs Hnt a Ha Hn).
    + intros ->. contradiction.
  - destruct (regularized_node _ _ _ _ _ _ Hs (or_introl Hc) H) as [_ [Hr [Hu _]]].
    destruct (regularized_moments _ _ _ _ _ _ Hs (or_introl Hc) H) as [Hm [Hj _]].
    split; [exact Hm|]. split; [exact Hr|]. split; [intros []|].
    intros _ a Ha. unfold st. rewrite (Hj a Ha), Hm, Hu. reflexivity.
Qed.

Lemma init_density c m nodes stream target N fuel s s' k : init_class c m -> closed_form (om_t m) = true -> om_s m <> 0 ->
  NoDup nodes -> init_iterative c m nodes stream target N fuel s = Some (Ok (s', k)) ->
  forall n, In n nodes -> mass (stencil_of (om_t m) (om_s m)) (fl_f s' n) = fl_rho s' n.
Proof.
  intros Hc Ht Hs Hnd H. unfold init_iterative in H. destruct (init_equilibrium _ _ _ _) as [s0| |] eqn:H0; try discriminate.
  destruct (init_equilibrium_ok _ _ _ _ _ Hnd H0) as [Hr [_ [Hf _]]].
  destruct (iterate_inv c m nodes stream target N
    (fun x => forall n, In n nodes -> mass (stencil_of (om_t m) (om_s m)) (fl_f x n) = fl_rho x n)) with (2 := Nat.le_0_l (N + 1)) (4 := H) as [HI _];
    [| |exact HI].
  - intros x y Hx Hy n Hn. destruct (old_all_ok _ _ _ _ _ _ Hnd Hy) as [H1 _]. cbn [fl_f fl_u fl_rho] in *.
    destruct (H1 n Hn) as [o [Ho [-> [-> _]]]]. destruct (init_step _ _ _ _ _ _ Hc Ht Hs Ho) as [E1 [E2 _]]. rewrite E1, E2. reflexivity.
  - intros n Hn. specialize (Hf n Hn). unfold getEquilibriumDistributions in Hf. destruct (eq_asserts _ _); [|discriminate].
    injection Hf as <-. rewrite old_eq_mass, Hr by assumption. destruct Hc as [Hc|[-> _]]; [|reflexivity]. destruct c; try contradiction; reflexivity.
Qed.

(** ** Time steps *)
Lemma old_model_ext m m' : om_t m = om_t m' -> om_s m = om_s m' -> om_tau m = om_tau m' -> om_prefactor m = om_prefactor m' ->
  om_dt m = om_dt m' -> om_forceType m = om_forceType m' -> om_F m = om_F m' -> m = m'.
Proof. destruct m, m'. cbn. intros. subst. reflexivity. Qed.

Lemma set_steps_ok : forall dts m m', 0 < om_dt m -> om_prefactor m = - 1 / (om_tau m + 1/2) -> set_steps m dts = Ok m' ->
  om_dt m' = last dts (om_dt m) /\ om_tau m' * om_dt m' = om_tau m * om_dt m /\ om_prefactor m' = - 1 / (om_tau m' + 1/2) /\
  0 < om_dt m' /\ om_t m' = om_t m /\ om_s m' = om_s m /\ om_forceType m' = om_forceType m /\ om_F m' = om_F m.
Proof.
  induction dts as [|dt rest IH]; intros m m' Hd Hp H; cbn [set_steps] in H.
  - injection H as <-. repeat split; assumption || reflexivity.
  - destruct (setTimeStep m dt) as [m1| |] eqn:H1; try discriminate. cbn [obind] in H.
    unfold setTimeStep in H1. destruct (Rlt_dec 0 dt) as [Hdt|]; [|discriminate]. injection H1 as <-.
    match type of H with set_steps ?m1 _ = _ => destruct (IH m1 m') as [E1 [E2 [E3 [E4 [E5 [E6 [E7 E8]]]]]]];
      [exact Hdt|reflexivity|exact H|] end.
    cbn [om_dt om_tau om_prefactor om_t om_s om_forceType om_F] in *.
    split; [|split; [|repeat split; assumption]].
    + rewrite E1. destruct rest; [reflexivity|]. cbn [last]. clear. revert r. induction rest as [|x rest IH]; intros r; [reflexivity|apply (IH x)].
    + rewrite E2. field. lra.
Qed.

Lemma set_steps_make c t s nu dt dts m m' : make_old c t s nu dt = Ok m -> s <> 0 -> set_steps m dts = Ok m' ->
  make_old c t s nu (last dts dt) = Ok m'.
Proof.
  intros Hm Hs H. unfold make_old, calculateRelaxationParameter in Hm |- *.
  destruct (Rlt_dec 0 nu) as [Hnu|]; [|discriminate]. destruct (Rlt_dec 0 dt) as [Hdt|]; [|discriminate]. cbn [obind] in Hm.
  pose proof (cs2_pos t s Hs) as Hcs. set (st := stencil_of t s) in *.
  assert (E : exists tau, Ok m = Ok (old_new t s tau dt) /\ tau * dt = match c with BGKSteadyState gamma => nu / (st_cs2 st * gamma) | _ => nu / st_cs2 st end
              /\ match c with BGKSteadyState gamma => 0 < gamma <= 1 | _ => True end).
  { destruct c; try (eexists; split; [symmetry; exact Hm|split; [field; lra|exact I]]).
    destruct (Rlt_dec 0 gamma); [|discriminate]. destruct (Rle_dec gamma 1); [|discriminate].
    eexists; split; [symmetry; exact Hm|split; [field; lra|lra]]. }
  destruct E as [tau [Em [Et Eg]]]. assert (Em' : m = old_new t s tau dt) by congruence. subst m.
  destruct (set_steps_ok dts (old_new t s tau dt) m' Hdt eq_refl H) as [E1 [E2 [E3 [E4 [E5 [E6 [E7 E8]]]]]]].
  cbn [old_new om_dt om_tau om_prefactor om_t om_s om_forceType om_F] in *.
  rewrite <- E1. destruct (Rlt_dec 0 (om_dt m')) as [_|]; [|contradiction]. cbn [obind].
  assert (Etau : om_tau m' = match c with BGKSteadyState gamma => nu / (om_dt m' * st_cs2 st * gamma) | _ => nu / (om_dt m' * st_cs2 st) end).
  { apply (Rmult_eq_reg_r (om_dt m')); [|lra]. rewrite E2, Et. destruct c; field; lra. }
  destruct c; try (destruct (Rlt_dec 0 gamma); [|lra]; destruct (Rle_dec gamma 1); [|lra]);
  (f_equal; apply old_model_ext; cbn [old_new om_dt om_tau om_prefactor om_t om_s om_forceType om_F];
   try (symmetry; assumption); rewrite ?E3, ?Etau; reflexivity).
Qed.
