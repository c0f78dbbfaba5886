(** The entropic classes at every node. *)
From Coq Require Import QArith Qreals.
From Verif Require Import Prelude StencilData StabilizerData ModelStencils SpecStencils SpecCollision BigSum ProofStencils ProofEqMoments
  ModelConfigNames ModelEquilibria ModelCollision ProofCollideAll ModelOldCollision SpecOldCollision ProofOldCollision ProofOldNode ProofOldNode2 ModelEntropic SpecEntropic ProofKBC ProofKBC9
  ProofKBCEq ProofKBCNode ProofKBCFix ProofStabilizer ProofStabilizer2 ProofStabilizer3 ProofEst.
Local Open Scope R_scope.

(** ** One node *)
Definition kbc9 (c : entropic_class) (m : old_model) : Prop := c <> EntropicStabilized /\ om_t m = Stencil_D2Q9.

(** The equilibrium the KBC classes relax to on D2Q9. *)
Definition kbc_feq (c : entropic_class) (s rho : R) (v : nat -> R) : nat -> R :=
  match c with
  | KBCStandard => entropic_D2Q9 rho (v 0%nat / s) (v 1%nat / s)
  | _ => feq_D2Q9 (1/2) (- (v 0%nat / s * (v 0%nat / s) + v 1%nat / s * (v 1%nat / s)) / (2 * (st_cs2 (D2Q9 s) / (s * s))))
           (1 / (st_cs2 (D2Q9 s) / (s * s))) rho (vec [v 0%nat / s; v 1%nat / s])
  end.

Lemma kbc9_inv c m init f u o : kbc9 c m -> om_s m <> 0 -> entropic_node c m init f u = Ok o ->
  let st := D2Q9 (om_s m) in
  kbc_result st (om_tau m) f (kbc_feq c (om_s m) (mass st f) (no_u o)) o (fun _ _ => True) /\
  no_u o = if init then u else raw_D2Q9 (om_s m) (mass st f) f.
Proof.
  intros [Hc Ht] Hs H. cbv zeta. unfold entropic_node in H. rewrite Ht in H. destruct c; [| |congruence]; cbn [kbc_feq].
  - destruct (standard9 m init f u o Hs H) as (R & U & _). split; [exact R|exact U].
  - exact (central9 m init f u o Hs H).
Qed.
Lemma kbc9_velocity c m f u o : kbc9 c m -> om_s m <> 0 -> entropic_node c m false f u = Ok o ->
  let st := D2Q9 (om_s m) in forall a, (a < 2)%nat -> no_u o a = momentum st f a / mass st f.
Proof.
  intros Hc Hs H st a Ha. destruct (kbc9_inv c m false f u o Hc Hs H) as [R U]. rewrite U. apply raw9_ok; [|exact Ha].
  assert (P := kr_pos _ _ _ _ _ _ R). fold st in P. lra.
Qed.
Lemma entropic15_inv m init f u o : om_s m = 1 -> om_t m = Stencil_D3Q15 -> entropic_node KBCStandard m init f u = Ok o ->
  let st := D3Q15 1 in
  exists feq, kbc_result st (om_tau m) f feq o (fun a b => a = b) /\
    (forall i, (i < 15)%nat -> feq i = old_eq BGKStandard st (mass st f) (no_u o) i) /\
    no_u o = if init then u else raw_D3Q15 1 (mass st f) f.
Proof. intros Hs Ht H. unfold entropic_node in H. rewrite Ht in H. exact (standard15 m init f u o Hs H). Qed.
Lemma v15 m f u o : om_s m = 1 -> om_t m = Stencil_D3Q15 -> entropic_node KBCStandard m false f u = Ok o ->
  let st := D3Q15 1 in forall a, (a < 3)%nat -> no_u o a = momentum st f a / mass st f.
Proof.
  intros Hs Ht H st a Ha. destruct (entropic15_inv m false f u o Hs Ht H) as (feq & R & _ & U). rewrite U. apply raw15_ok; [|exact Ha].
  assert (P := kr_pos _ _ _ _ _ _ R). fold st in P. lra.
Qed.

Lemma node_conserves c m f u o : kbc_case c m -> om_s m <> 0 -> entropic_node c m false f u = Ok o ->
  let st := stencil_of (om_t m) (om_s m) in
  conserves st f (no_f o) /\ stores_moments st f (no_rho o) (no_u o).
Proof.
  intros Hc Hs H. cbv zeta. destruct c; cbn [kbc_case] in Hc.
  - destruct Hc as [Ht|[Ht H1]].
    + assert (K : kbc9 KBCStandard m) by (split; [discriminate|exact Ht]). assert (V := kbc9_velocity _ _ _ _ _ K Hs H). destruct (kbc9_inv _ _ _ _ _ _ K Hs H) as [R U].
      rewrite Ht. cbn [stencil_of]. split; [exact (result_conserves _ _ _ _ _ _ R V)|]. split; [destruct R; assumption|exact V].
    + assert (V := v15 _ _ _ _ H1 Ht H). destruct (entropic15_inv _ _ _ _ _ H1 Ht H) as (feq & R & F & U).
      rewrite Ht, H1. cbn [stencil_of]. split; [exact (result_conserves _ _ _ _ _ _ R V)|]. split; [destruct R; assumption|exact V].
  - assert (K : kbc9 KBCCentral m) by (split; [discriminate|exact Hc]). assert (V := kbc9_velocity _ _ _ _ _ K Hs H). destruct (kbc9_inv _ _ _ _ _ _ K Hs H) as [R U].
    rewrite Hc. cbn [stencil_of]. split; [exact (result_conserves _ _ _ _ _ _ R V)|]. split; [destruct R; assumption|exact V].
  - cbn [entropic_node] in H. destruct (est_result m false f u o Hs H) as (Ct & Hr & Hp & Hu & w2 & _ & M & J & _).
    assert (Hn : mass (stencil_of (om_t m) (om_s m)) f <> 0) by lra.
    split; [split; [exact M|]|split; [exact Hr|intros; apply Hu]].
    intros a Ha. rewrite (J a Ha), (Hu a). set (r := (_ - 1) * _).
    replace (mass _ f * (momentum _ f a / mass _ f)) with (momentum (stencil_of (om_t m) (om_s m)) f a) by (field; exact Hn). ring.
Qed.

Lemma node_init c m f u o : kbc_case c m -> om_s m <> 0 -> entropic_node c m true f u = Ok o ->
  let st := stencil_of (om_t m) (om_s m) in mass st (no_f o) = mass st f /\ no_rho o = mass st f /\ no_u o = u.
Proof.
  intros Hc Hs H. cbv zeta. destruct c; cbn [kbc_case] in Hc.
  - destruct Hc as [Ht|[Ht H1]].
    + assert (K : kbc9 KBCStandard m) by (split; [discriminate|exact Ht]). destruct (kbc9_inv _ _ _ _ _ _ K Hs H) as [R U].
      rewrite Ht. cbn [stencil_of]. split; [exact (result_mass _ _ _ _ _ _ R)|]. split; [exact (kr_rho _ _ _ _ _ _ R)|exact U].
    + destruct (entropic15_inv _ _ _ _ _ H1 Ht H) as (feq & R & F & U).
      rewrite Ht, H1. cbn [stencil_of]. split; [exact (result_mass _ _ _ _ _ _ R)|]. split; [exact (kr_rho _ _ _ _ _ _ R)|exact U].
  - assert (K : kbc9 KBCCentral m) by (split; [discriminate|exact Hc]). destruct (kbc9_inv _ _ _ _ _ _ K Hs H) as [R U].
    rewrite Hc. cbn [stencil_of]. split; [exact (result_mass _ _ _ _ _ _ R)|]. split; [exact (kr_rho _ _ _ _ _ _ R)|exact U].
  - cbn [entropic_node] in H. destruct (est_result m true f u o Hs H) as (Ct & Hr & Hp & Hu & w2 & _ & M & J & _). auto.
Qed.

(** ** Every node *)
Lemma loop_ok c m init nodes : forall x x', NoDup nodes -> entropic_loop c m init nodes x = Ok x' ->
  (forall n, In n nodes -> exists o, entropic_node c m init (fl_f x n) (fl_u x n) = Ok o /\
     fl_f x' n = no_f o /\ fl_rho x' n = no_rho o /\ fl_u x' n = no_u o) /\
  (forall n, ~ In n nodes -> untouched x x' n).
Proof.
  induction nodes as [|k rest IH]; intros x x' Hnd H; cbn [entropic_loop] in H.
  - injection H as <-. split; [intros n []|intros; repeat split].
  - destruct (entropic_node c m init (fl_f x k) (fl_u x k)) as [o| |] eqn:Ho; try discriminate. cbn [obind] in H.
    inversion Hnd as [|k' r' Hk Hnd']; subst.
    destruct (IH _ _ Hnd' H) as [H1 H2]. split.
    + intros n [<- | Hn].
      * destruct (H2 k Hk) as [E1 [E2 E3]]. cbn [fl_f fl_rho fl_u] in *. rewrite upd_same in E1; rewrite upd_same in E2; rewrite upd_same in E3.
        exists o. auto.
      * assert (Hne : n <> k) by (intros ->; contradiction).
        destruct (H1 n Hn) as [o' [Ho' [E1 [E2 E3]]]]. cbn [fl_f fl_u fl_rho] in Ho'.
        rewrite (upd_other (fl_f x)), (upd_other (fl_u x)) in Ho' by assumption. exists o'. auto.
    + intros n Hn. assert (Hne : n <> k) by (intros ->; apply Hn; left; reflexivity).
      destruct (H2 n (fun Hx => Hn (or_intror Hx))) as [E1 [E2 E3]]. cbn [fl_f fl_rho fl_u] in *.
      rewrite upd_other in E1 by assumption; rewrite upd_other in E2 by assumption; rewrite upd_other in E3 by assumption. repeat split; assumption.
Qed.
Lemma loop_works c m init nodes : forall x, NoDup nodes ->
  (forall n, In n nodes -> exists o, entropic_node c m init (fl_f x n) (fl_u x n) = Ok o) ->
  exists x', entropic_loop c m init nodes x = Ok x'.
Proof.
  induction nodes as [|k rest IH]; intros x Hnd H; cbn [entropic_loop].
  - exists x. reflexivity.
  - destruct (H k (or_introl eq_refl)) as [o Ho]. rewrite Ho. cbn [obind].
    inversion Hnd as [|k' r' Hk Hnd']; subst. apply IH; [assumption|].
    intros n Hn. assert (Hne : n <> k) by (intros ->; contradiction). cbn [fl_f fl_u fl_rho].
    rewrite (upd_other (fl_f x)), (upd_other (fl_u x)) by assumption. apply H. right. assumption.
Qed.
Lemma all_ok c m init nodes x x' : NoDup nodes -> entropic_collideAll c m init nodes x = Ok x' ->
  (forall n, In n nodes -> exists o, entropic_node c m init (fl_f x n) (fl_u x n) = Ok o /\
     fl_f x' n = no_f o /\ fl_rho x' n = no_rho o /\ fl_u x' n = no_u o) /\
  (forall n, ~ In n nodes -> untouched x x' n).
Proof. intros Hnd H. unfold entropic_collideAll in H. destruct (entropic_accepts _ _); [|discriminate]. apply (loop_ok c m init); assumption. Qed.

Lemma all_conserve c m nodes x x' : kbc_case c m -> om_s m <> 0 -> NoDup nodes -> entropic_collideAll c m false nodes x = Ok x' ->
  let st := stencil_of (om_t m) (om_s m) in
  (forall n, In n nodes -> conserves st (fl_f x n) (fl_f x' n) /\ stores_moments st (fl_f x n) (fl_rho x' n) (fl_u x' n)) /\
  (forall n, ~ In n nodes -> untouched x x' n).
Proof.
  intros Hc Hs Hnd H st. destruct (all_ok _ _ _ _ _ _ Hnd H) as [A B]. split; [|exact B].
  intros n Hn. destruct (A n Hn) as (o & E & F & G & U). rewrite F, G, U. exact (node_conserves c m _ _ o Hc Hs E).
Qed.
Lemma all_init c m nodes x x' : kbc_case c m -> om_s m <> 0 -> NoDup nodes -> entropic_collideAll c m true nodes x = Ok x' ->
  let st := stencil_of (om_t m) (om_s m) in
  (forall n, In n nodes -> mass st (fl_f x' n) = mass st (fl_f x n) /\ fl_rho x' n = mass st (fl_f x n) /\ fl_u x' n = fl_u x n) /\
  (forall n, ~ In n nodes -> untouched x x' n).
Proof.
  intros Hc Hs Hnd H st. destruct (all_ok _ _ _ _ _ _ Hnd H) as [A B]. split; [|exact B].
  intros n Hn. destruct (A n Hn) as (o & E & F & G & U). rewrite F, G, U. exact (node_init c m _ _ o Hc Hs E).
Qed.

(** ** Momentum flux *)
Lemma kbc9_moment2 c s rho v a b : c <> EntropicStabilized -> s <> 0 -> (c = KBCStandard -> v 0%nat / s * (v 0%nat / s) <> 1 /\ v 1%nat / s * (v 1%nat / s) <> 1) ->
  (a < 2)%nat -> (b < 2)%nat ->
  moment2 (D2Q9 s) (kbc_feq c s rho v) a b = match c with KBCStandard => entropic_flux s rho v a b | _ => standard_flux (D2Q9 s) rho v a b end.
Proof.
  intros Hc Hs Hn Ha Hb. destruct c; [| |congruence]; cbn [kbc_feq].
  - destruct (Hn eq_refl) as [Nx Ny]. rewrite entropic_moment2 by assumption. unfold entropic_flux. rewrite !(v9 s v Hs) by assumption. reflexivity.
  - assert (E : forall i, (i < st_Q (D2Q9 s))%nat -> kbc_feq KBCCentral s rho v i = old_eq MRTStandard (D2Q9 s) rho v i)
      by exact (fun i Hi => central_feq (old_new Stencil_D2Q9 s 1 1) Hs rho v i Hi).
    cbn [kbc_feq] in E. rewrite (moment2_ext (D2Q9 s) _ _ a b E).
    exact (eq_stress MRTStandard Stencil_D2Q9 s rho v a b eq_refl Hs I Ha Hb).
Qed.
Lemma standard9_bound m f u o init : om_t m = Stencil_D2Q9 -> om_s m <> 0 -> entropic_node KBCStandard m init f u = Ok o ->
  no_u o 0%nat / om_s m * (no_u o 0%nat / om_s m) <> 1 /\ no_u o 1%nat / om_s m * (no_u o 1%nat / om_s m) <> 1.
Proof. intros Ht Hs H. unfold entropic_node in H. rewrite Ht in H. destruct (standard9 m init f u o Hs H) as (_ & _ & A & B). split; assumption. Qed.

Lemma kbc9_flux c m f u o : kbc9 c m -> om_s m <> 0 -> om_tau m + 1/2 <> 0 -> entropic_node c m false f u = Ok o ->
  let st := D2Q9 (om_s m) in
  forall a b, (a < 2)%nat -> (b < 2)%nat ->
  moment2 st (no_f o) a b = moment2 st f a b - 1 / (om_tau m + 1/2) *
    (moment2 st f a b - match c with KBCStandard => entropic_flux (om_s m) (mass st f) (velocity st f) a b | _ => standard_flux st (mass st f) (velocity st f) a b end).
Proof.
  intros Hc Hs Ht H st a b Ha Hb. assert (V := kbc9_velocity c m f u o Hc Hs H). destruct (kbc9_inv c m false f u o Hc Hs H) as [R _].
  fold st in R, V. rewrite (result_stress _ _ _ _ _ _ R V a b Ht Ha Hb I). 
  assert (K := fun X Y => kbc9_moment2 c (om_s m) (mass st f) (no_u o) a b X Hs Y Ha Hb). fold st in K.
  rewrite K; [|destruct Hc; assumption|intros ->; destruct Hc as [_ Hc]; exact (standard9_bound m f u o false Hc Hs H)].
  assert (Va : no_u o a = velocity st f a) by (apply V; exact Ha). assert (Vb : no_u o b = velocity st f b) by (apply V; exact Hb).
  destruct c; unfold entropic_flux, standard_flux; rewrite Va, Vb; reflexivity.
Qed.

Lemma est_flux m f u o : om_s m <> 0 -> entropic_node EntropicStabilized m false f u = Ok o ->
  let st := stencil_of (om_t m) (om_s m) in
  exists w2, forall a b, (a < st_D st)%nat -> (b < st_D st)%nat -> stress st (no_f o) a b = (1 - 1 / (om_tau m + 1/2)) * (1 + w2) * stress st f a b.
Proof.
  intros Hs H st. assert (N := node_conserves EntropicStabilized m f u o). cbn [entropic_node] in H.
  assert (Kc : kbc_case EntropicStabilized m).
  { cbn [kbc_case]. destruct (est_inv m false f u o H) as (k & w2 & Hk & _). destruct (om_t m); try discriminate; tauto. }
  destruct (N Kc Hs H) as [[M J] [_ V]]. clear N. fold st in M, J, V.
  destruct (est_result m false f u o Hs H) as (Ct & Hr & Hp & Hu & w2 & _ & _ & _ & P). fold st in P, Hp. exists w2.
  intros a b Ha Hb. unfold stress. rewrite (P a b Ha Hb), M, (J a Ha), (J b Hb). unfold standard_flux. rewrite (V a Ha), (V b Hb).
  set (r := 1 / (om_tau m + 1/2)). field. lra.
Qed.
