(** C84-C91: the entropic collision classes and the pseudo-entropic stabilizer. *)
From Verif Require Import Prelude ModelStencils SpecStencils SpecCollision BigSum ModelConfigNames ModelEquilibria ModelCollision ModelOldCollision SpecOldCollision ProofOldCollision
  ModelEntropic SpecEntropic ProofKBC ProofKBC9 ProofKBCFix ProofStabilizer3 ProofEst ProofEntropicAll ProofEntropicEq ProofEntropicRefuted ProofEntropicRefuted2 ProofEntropicSummary.
Local Open Scope R_scope.

(** ** C84: conservation. *)
Theorem C84_conserves_partial : forall c m nodes x x', kbc_case c m -> om_s m <> 0 -> NoDup nodes -> entropic_collideAll c m false nodes x = Ok x' ->
  let st := stencil_of (om_t m) (om_s m) in
  (forall n, In n nodes -> conserves st (fl_f x n) (fl_f x' n) /\ stores_moments st (fl_f x n) (fl_rho x' n) (fl_u x' n)) /\
  (forall n, ~ In n nodes -> untouched x x' n).
Proof. exact all_conserve. Qed.
Print Assumptions C84_conserves_partial.
Example C84_conserves_partial_ex : forall c, kbc_case c model9 /\
  exists x', entropic_collideAll c model9 false [0%nat] {| fl_f := fun _ => ghostly; fl_rho := fun _ => 1; fl_u := fun _ => (fun _ => 0) |} = Ok x'.
Proof. intros c. split; [destruct c; cbn; tauto|apply ghost_all]. Qed.

(** During the initialisation the mass is kept and the prescribed velocity stored. *)
Theorem C84_init_partial : forall c m nodes x x', kbc_case c m -> om_s m <> 0 -> NoDup nodes -> entropic_collideAll c m true nodes x = Ok x' ->
  let st := stencil_of (om_t m) (om_s m) in
  (forall n, In n nodes -> mass st (fl_f x' n) = mass st (fl_f x n) /\ fl_rho x' n = mass st (fl_f x n) /\ fl_u x' n = fl_u x n) /\
  (forall n, ~ In n nodes -> untouched x x' n).
Proof. exact all_init. Qed.
Print Assumptions C84_init_partial.
Example C84_init_partial_ex : kbc_case KBCStandard model9 /\ om_s model9 <> 0.
Proof. cbn. split; [tauto|lra]. Qed.

(** KBCStandard on D3Q15 creates mass as soon as the stencil is scaled. *)
Theorem C84_scaled_refuted : exists m f o, make_entropic Stencil_D3Q15 2 (2/3) 1 = Ok m /\ entropic_node KBCStandard m false f (fun _ => 0) = Ok o /\
  mass (D3Q15 2) (no_f o) <> mass (D3Q15 2) f.
Proof. destruct scaled15 as [A (o & B & C & D)]. exists model15, lumped, o. split; [exact A|]. split; [exact B|]. rewrite C, D. lra. Qed.
Print Assumptions C84_scaled_refuted.

(** ** C85: the momentum flux relaxes with the rate of the viscosity. *)
Theorem C85_flux_partial : forall c s nu dt m f u o, c <> EntropicStabilized -> s <> 0 -> make_entropic Stencil_D2Q9 s nu dt = Ok m -> entropic_node c m false f u = Ok o ->
  let st := D2Q9 s in
  let flux := match c with KBCStandard => entropic_flux s | _ => standard_flux st end in
  forall a b, (a < 2)%nat -> (b < 2)%nat ->
  moment2 st (no_f o) a b - flux (mass st f) (velocity st f) a b =
  (1 - 1 / (nu / (dt * st_cs2 st) + 1/2)) * (moment2 st f a b - flux (mass st f) (velocity st f) a b).
Proof. exact flux_made. Qed.
Print Assumptions C85_flux_partial.
Example C85_flux_partial_ex : make_entropic Stencil_D2Q9 1 (1/3) 1 = Ok model9 /\ (exists o, entropic_node KBCStandard model9 false ghostly (fun _ => 0) = Ok o) /\
  stress (D2Q9 1) ghostly 0 0 = 2/45.
Proof. split; [exact model9_made|]. split; [apply ghost_runs|]. destruct growth as [_ (o & _ & E & _)]. exact E. Qed.

(** The flux of the product form differs from the one of the Navier-Stokes equations in fourth
    order of the velocity only. *)
Theorem C85_fourth_order : forall s rho v a b, s <> 0 -> 0 <= rho ->
  (a <> b -> entropic_flux s rho v a b = standard_flux (D2Q9 s) rho v a b) /\
  0 <= standard_flux (D2Q9 s) rho v a a - entropic_flux s rho v a a <= 3/4 * rho * (v a)^4 / (s * s).
Proof. intros s rho v a b Hs Hr. split; [apply flux_off|apply flux_diff; assumption]. Qed.
Print Assumptions C85_fourth_order.
Example C85_fourth_order_ex : entropic_flux 1 1 (fun _ => 4/11) 0 0 = 5/11 /\ standard_flux (D2Q9 1) 1 (fun _ => 4/11) 0 0 = 169/363.
Proof.
  split.
  - unfold entropic_flux. cbn [Nat.eqb]. replace (1 + 3 * (4/11/1 * (4/11/1))) with (13/11 * (13/11)) by field. rewrite sqrt_square by lra. field.
  - unfold standard_flux, delta. cbn [Nat.eqb D2Q9 st_cs2]. field.
Qed.

(** D3Q15 without scaling: normal stresses only. *)
Theorem C85_normal_partial : forall nu dt m f u o, make_entropic Stencil_D3Q15 1 nu dt = Ok m -> entropic_node KBCStandard m false f u = Ok o ->
  let st := D3Q15 1 in forall a, (a < 3)%nat -> stress st (no_f o) a a = (1 - 1 / (nu / (dt * st_cs2 st) + 1/2)) * stress st f a a.
Proof. exact flux_made15. Qed.
Print Assumptions C85_normal_partial.
Example C85_normal_partial_ex : make_entropic Stencil_D3Q15 1 (1/3) 1 = Ok model15s /\ exists o, entropic_node KBCStandard model15s false sheared (fun _ => 0) = Ok o.
Proof. destruct sheared15 as [A (o & B & _)]. split; [exact A|]. exists o. exact B. Qed.

(** The shear stress does not. *)
Theorem C85_shear_refuted : exists m f o, make_entropic Stencil_D3Q15 1 (1/3) 1 = Ok m /\ entropic_node KBCStandard m false f (fun _ => 0) = Ok o /\
  stress (D3Q15 1) (no_f o) 0 1 <> (1 - 1 / (1/3 / (1 * st_cs2 (D3Q15 1)) + 1/2)) * stress (D3Q15 1) f 0 1.
Proof.
  destruct sheared15 as [A (o & B & C & D)]. exists model15s, sheared, o. split; [exact A|]. split; [exact B|]. rewrite C, D. cbn [D3Q15 st_cs2]. intros E.
  replace ((1 - 1 / (1 / 3 / (1 * (1 * 1 / 3)) + 1 / 2)) * (1 / 18)) with (1/54) in E by field. lra.
Qed.
Print Assumptions C85_shear_refuted.

(** ** C86: the collision does not lead away from the equilibrium, and takes the higher moments to
    the optimum. *)
Theorem C86_contracts : forall c s nu dt m f u g o, c <> EntropicStabilized -> s <> 0 -> make_entropic Stencil_D2Q9 s nu dt = Ok m -> entropic_node c m false f u = Ok o ->
  let st := D2Q9 s in
  (forall i, (i < 9)%nat -> entropic_eq c Stencil_D2Q9 s (mass st f) (velocity st f) i = Ok (g i)) -> (forall i, (i < 9)%nat -> 0 < g i) ->
  distance st g (no_f o) <= (1 - 1 / (nu / (dt * st_cs2 st) + 1/2)) * (1 - 1 / (nu / (dt * st_cs2 st) + 1/2)) * distance st g f /\ distance st g (no_f o) <= distance st g f.
Proof. exact contracts_made. Qed.
Print Assumptions C86_contracts.
Example C86_contracts_ex : forall c, c <> EntropicStabilized -> make_entropic Stencil_D2Q9 1 (1/3) 1 = Ok model9 /\ (exists o, entropic_node c model9 false ghostly (fun _ => 0) = Ok o) /\
  exists g, (forall i, (i < 9)%nat -> entropic_eq c Stencil_D2Q9 1 (mass (D2Q9 1) ghostly) (velocity (D2Q9 1) ghostly) i = Ok (g i)) /\ forall i, (i < 9)%nat -> 0 < g i.
Proof. intros c Hc. split; [exact model9_made|]. split; [apply ghost_runs|apply ghost_eq; exact Hc]. Qed.

Theorem C86_contracts_D3Q15 : forall nu dt m f u o, make_entropic Stencil_D3Q15 1 nu dt = Ok m -> entropic_node KBCStandard m false f u = Ok o ->
  let st := D3Q15 1 in let g := old_eq BGKStandard st (mass st f) (velocity st f) in
  (forall i, (i < 15)%nat -> 0 < g i) ->
  distance st g (no_f o) <= (1 - 1 / (nu / (dt * st_cs2 st) + 1/2)) * (1 - 1 / (nu / (dt * st_cs2 st) + 1/2)) * distance st g f.
Proof. exact contracts_made15. Qed.
Print Assumptions C86_contracts_D3Q15.
Example C86_contracts_D3Q15_ex : (make_entropic Stencil_D3Q15 1 (1/3) 1 = Ok model15s /\ exists o, entropic_node KBCStandard model15s false sheared (fun _ => 0) = Ok o) /\
  forall i, (i < 15)%nat -> 0 < old_eq BGKStandard (D3Q15 1) (mass (D3Q15 1) sheared) (velocity (D3Q15 1) sheared) i.
Proof.
  split; [exact C85_normal_partial_ex|]. intros i Hi.
  assert (M : mass (D3Q15 1) sheared = 1) by (unfold mass, sheared; nine; lra).
  assert (V : forall a, (a < 3)%nat -> velocity (D3Q15 1) sheared a = 0).
  { intros a Ha. unfold velocity. rewrite M. unfold momentum, sheared. do 3 (destruct a as [|a]; [nine; field|]). lia. }
  apply (quadratic_positive Stencil_D3Q15 1 (mass (D3Q15 1) sheared) (velocity (D3Q15 1) sheared) i); try reflexivity; try lra; try exact Hi.
  - cbn [stencil_of D3Q15 st_D st_cs2 sumf]. rewrite !V by lia. lra.
  - cbn [stencil_of D3Q15 st_w]. do 15 (destruct i as [|i]; [nine; lra|]). lia.
  - unfold entropic_eq, eq_asserts. cbv zeta. rewrite M, !V by lia. destruct (Rlt_dec 0 1); [|lra]. destruct (Rlt_dec 0 (10^15)); [reflexivity|lra].
Qed.

(** The BGK state with the same viscosity lies on a line through the result whose direction has no
    mass, momentum or momentum flux; on this line the result is the point nearest to the
    equilibrium, unless the direction is negligible. *)
Theorem C86_optimal : forall c s nu dt m f u g o, c <> EntropicStabilized -> s <> 0 -> make_entropic Stencil_D2Q9 s nu dt = Ok m -> entropic_node c m false f u = Ok o ->
  let st := D2Q9 s in
  (forall i, (i < 9)%nat -> entropic_eq c Stencil_D2Q9 s (mass st f) (velocity st f) i = Ok (g i)) -> (forall i, (i < 9)%nat -> 0 < g i) ->
  exists d t0, no_moments st d /\
    (forall i, (i < 9)%nat -> bgk_state (nu / (dt * st_cs2 st)) f g i = no_f o i + t0 * d i) /\
    (t0 = 0 /\ sumf 9 (fun i => d i * d i / g i) < 1 / 10^16 \/
     forall t, distance st g (no_f o) <= distance st g (fun i => no_f o i + t * d i)).
Proof. exact optimal_made. Qed.
Print Assumptions C86_optimal.
Example C86_optimal_ex : exists o, entropic_node KBCCentral model9 false ghostly (fun _ => 0) = Ok o.
Proof. apply ghost_runs. Qed.

(** ** C87: the equilibria hold density and velocity and are fixed points. *)
Theorem C87_holds_partial : forall c t s rho v g, s <> 0 -> (c = KBCStandard -> t = Stencil_D2Q9) -> closed_form t = true ->
  (forall i, (i < st_Q (stencil_of t s))%nat -> entropic_eq c t s rho v i = Ok (g i)) -> holds (stencil_of t s) rho v g.
Proof. exact eq_holds. Qed.
Print Assumptions C87_holds_partial.
Example C87_holds_partial_ex : exists g, forall i, (i < 9)%nat -> entropic_eq KBCStandard Stencil_D2Q9 1 (mass (D2Q9 1) ghostly) (velocity (D2Q9 1) ghostly) i = Ok (g i).
Proof. destruct (ghost_eq KBCStandard) as [g [H _]]; [discriminate|]. exists g. exact H. Qed.

Theorem C87_fixed : forall c m rho v f u, c <> EntropicStabilized -> om_t m = Stencil_D2Q9 -> om_s m <> 0 -> 1 / 10^10 <= rho ->
  (forall i, (i < 9)%nat -> entropic_eq c Stencil_D2Q9 (om_s m) rho v i = Ok (f i)) -> (forall i, (i < 9)%nat -> f i <> 0) ->
  exists o, entropic_node c m false f u = Ok o /\ same_populations (D2Q9 (om_s m)) f (no_f o) /\ no_rho o = rho /\ forall a, (a < 2)%nat -> no_u o a = v a.
Proof. intros c m rho v f u Hc Ht Hs Hr Hf Hn. exact (kbc9_fixed c m rho v f u (conj Hc Ht) Hs Hr Hf Hn). Qed.
Print Assumptions C87_fixed.
Example C87_fixed_ex : forall c, c <> EntropicStabilized -> exists f, (forall i, (i < 9)%nat -> entropic_eq c Stencil_D2Q9 1 (mass (D2Q9 1) ghostly) (velocity (D2Q9 1) ghostly) i = Ok (f i)) /\
  forall i, (i < 9)%nat -> f i <> 0.
Proof. intros c Hc. destruct (ghost_eq c Hc) as [g [H P]]. exists g. split; [exact H|]. intros i Hi. apply Rgt_not_eq, P. exact Hi. Qed.

(** The product form is defined exactly below the lattice speed, and is positive there. *)
Theorem C87_domain : forall s rho v i, 0 < rho -> s <> 0 -> v 0%nat < 10^15 -> v 1%nat < 10^15 -> (i < 9)%nat ->
  ((exists g, entropic_eq KBCStandard Stencil_D2Q9 s rho v i = Ok g) <-> v 0%nat * v 0%nat < s * s /\ v 1%nat * v 1%nat < s * s) /\
  forall g, entropic_eq KBCStandard Stencil_D2Q9 s rho v i = Ok g -> 0 < g.
Proof. intros s rho v i Hr Hs H0 H1 Hi. split; [apply standard_exists; assumption|]. intros g. apply standard_positive; assumption. Qed.
Print Assumptions C87_domain.
Example C87_domain_ex : exists g, entropic_eq KBCStandard Stencil_D2Q9 1 1 (fun _ => 4/11) 5%nat = Ok g.
Proof. apply (proj1 (C87_domain 1 1 (fun _ => 4/11) 5 ltac:(lra) ltac:(lra) ltac:(lra) ltac:(lra) ltac:(lia))). lra. Qed.

(** On D3Q15 the product form does not have the density. *)
Theorem C87_D3Q15_refuted : exists v g, (forall i, (i < 15)%nat -> entropic_eq KBCStandard Stencil_D3Q15 1 1 v i = Ok (g i)) /\ mass (D3Q15 1) g <> 1.
Proof. exists diagonal, product15. split; [exact product15_eq|exact product15_mass]. Qed.
Print Assumptions C87_D3Q15_refuted.

(** ** C88: unsupported stencils stop the simulation; the supported ones keep the equilibrium. *)
Theorem C88_stencils : forall c m init n nodes x, ~ (match c with
    | KBCStandard => om_t m = Stencil_D2Q9 \/ om_t m = Stencil_D3Q15
    | KBCCentral => om_t m = Stencil_D2Q9
    | EntropicStabilized => om_t m = Stencil_D2Q9 \/ om_t m = Stencil_D3Q19
    end) -> entropic_collideAll c m init (n :: nodes) x = Throw.
Proof. exact wrong_stencil. Qed.
Print Assumptions C88_stencils.
Example C88_stencils_ex : entropic_collideAll KBCStandard (old_new Stencil_D3Q19 1 1 1) false [0%nat] {| fl_f := fun _ => ghostly; fl_rho := fun _ => 1; fl_u := fun _ => (fun _ => 0) |} = Throw.
Proof. apply C88_stencils. cbn. intros [H|H]; discriminate. Qed.

Theorem C88_stabilized_fixed : forall m rho v f u, om_s m <> 0 -> om_t m = Stencil_D2Q9 \/ om_t m = Stencil_D3Q19 -> 1 / 10^12 <= rho ->
  let st := stencil_of (om_t m) (om_s m) in
  (forall i, (i < st_Q st)%nat -> entropic_eq EntropicStabilized (om_t m) (om_s m) rho v i = Ok (f i)) ->
  exists o, entropic_node EntropicStabilized m false f u = Ok o /\ same_populations st f (no_f o) /\ no_rho o = rho /\ (forall a, (a < st_D st)%nat -> no_u o a = v a).
Proof.
  intros m rho v f u Hs Ht Hr st Hf. cbn [entropic_node].
  assert (K : exists k, est_kind (om_t m) = Some k) by (destruct Ht as [->| ->]; eexists; reflexivity). destruct K as [k Hk].
  apply (est_fixed m rho v f u k Hs Hk Hr). intros i Hi. destruct (quadratic_eq EntropicStabilized (om_t m) (om_s m) rho v i (f i) ltac:(discriminate) (Hf i Hi)) as [_ E]. exact E.
Qed.
Print Assumptions C88_stabilized_fixed.
Example C88_stabilized_fixed_ex : forall i, (i < 19)%nat -> entropic_eq EntropicStabilized Stencil_D3Q19 1 1 (fun _ => 1/10) i = Ok (old_eq MRTStandard (D3Q19 1) 1 (fun _ => 1/10) i).
Proof. intros i _. unfold entropic_eq, eq_asserts. cbv zeta. destruct (Rlt_dec 0 1); [|lra]. destruct (Rlt_dec (1/10) (10^15)); [reflexivity|lra]. Qed.

(** EntropicStabilized accepts D3Q27 although it cannot collide a single node. *)
Theorem C88_dispatch_refuted : exists m, make_entropic Stencil_D3Q27 1 (1/3) 1 = Ok m /\ (forall x, entropic_collideAll EntropicStabilized m false [] x = Ok x) /\
  forall n nodes x, entropic_collideAll EntropicStabilized m false (n :: nodes) x = Throw.
Proof.
  eexists. split; [apply make_entropic_ok; [lra|lra|reflexivity]|]. split; [intros; reflexivity|]. intros. apply C88_stencils. cbn. intros [H|H]; discriminate.
Qed.
Print Assumptions C88_dispatch_refuted.

(** ** C89: EntropicStabilized multiplies the stress by one factor, which is the one of the
    viscosity if the entropic correction is not used. *)
Theorem C89_factor_partial : forall m f u o, om_s m <> 0 -> entropic_node EntropicStabilized m false f u = Ok o ->
  let st := stencil_of (om_t m) (om_s m) in
  exists w2, ((exists i, (i < st_Q st)%nat /\ f i <= 1 / 10^11) -> w2 = 0) /\
  forall a b, (a < st_D st)%nat -> (b < st_D st)%nat -> stress st (no_f o) a b = (1 - 1 / (om_tau m + 1/2)) * (1 + w2) * stress st f a b.
Proof. exact est_stress. Qed.
Print Assumptions C89_factor_partial.
Example C89_factor_partial_ex : om_s model9 <> 0 /\ exists o, entropic_node EntropicStabilized model9 false ghostly (fun _ => 0) = Ok o.
Proof. split; [cbn; lra|apply ghost_runs]. Qed.

(** The correction can make the stress grow in a collision. *)
Theorem C89_growth_refuted : exists m f o, make_entropic Stencil_D2Q9 1 (1/3) 1 = Ok m /\ (forall i, (i < 9)%nat -> 0 < f i) /\
  entropic_node EntropicStabilized m false f (fun _ => 0) = Ok o /\
  0 < stress (D2Q9 1) f 0 0 < stress (D2Q9 1) (no_f o) 0 0.
Proof.
  destruct growth as [A (o & B & C & D)]. exists model9, ghostly, o. split; [exact A|]. split; [|split; [exact B|lra]].
  intros i Hi. unfold ghostly. apply Rmult_lt_0_compat; [exact (w9_pos i Hi)|]. revert i Hi. apply all9; unfold ratio9, vec; cbn [nth]; lra.
Qed.
Print Assumptions C89_growth_refuted.

(** ** C90: entropy and its derivative. *)
Theorem C90_derivative_partial : forall Q w f d D, (forall i, (i < Q)%nat -> 0 < w i) -> entropyDerivative Q w f d = Ok D ->
  derivable_pt_lim (fun t => H Q w (fun i => f i + t * d i)) 0 (D - sumf Q d + sumf Q (fun i => w i * d i)).
Proof. exact derivative_off. Qed.
Print Assumptions C90_derivative_partial.
Example C90_derivative_partial_ex : exists D, entropyDerivative 9 w9 ghostly (fun i => reg9 i - w9 i) = Ok D.
Proof.
  unfold entropyDerivative. rewrite (proj2 (positive_spec 9 ghostly)); [eexists; reflexivity|].
  intros i Hi. unfold ghostly. apply Rmult_lt_0_compat; [exact (w9_pos i Hi)|]. revert i Hi. apply all9; unfold ratio9, vec; cbn [nth]; lra.
Qed.

Theorem C90_entropy : forall Q w f h, entropy Q w f = Ok h -> h = H Q w f /\ forall i, (i < Q)%nat -> 0 < f i.
Proof. intros Q w f h E. split; [exact (entropy_ok Q w f h E)|]. unfold entropy in E. destruct (positive Q f) eqn:P; [|discriminate]. apply positive_spec. exact P. Qed.
Print Assumptions C90_entropy.
Example C90_entropy_ex : exists h, entropy 9 w9 ghostly = Ok h.
Proof. eexists. exact H_ghostly. Qed.

(** It is not the derivative: on the weights of D2Q9, for a direction without mass. *)
Definition mass_free (i : nat) : R := match i with 0%nat => 1 | 1%nat => -1 | _ => 0 end.
Theorem C90_derivative_refuted : exists f d D, (forall i, (i < 9)%nat -> 0 < f i) /\ mass (D2Q9 1) d = 0 /\ entropyDerivative 9 (st_w (D2Q9 1)) f d = Ok D /\
  ~ derivable_pt_lim (fun t => H 9 (st_w (D2Q9 1)) (fun i => f i + t * d i)) 0 D.
Proof.
  assert (W : forall i, (i < 9)%nat -> 0 < st_w (D2Q9 1) i) by (intros i Hi; rewrite (st9 i Hi); apply w9_pos; exact Hi).
  assert (P : positive 9 (st_w (D2Q9 1)) = true) by (apply positive_spec; exact W).
  exists (st_w (D2Q9 1)), mass_free. eexists. split; [exact W|]. split; [unfold mass; change (st_Q (D2Q9 1)) with 9%nat; cbn; ring|]. split; [unfold entropyDerivative; rewrite P; reflexivity|].
  intros G. assert (K := derivative_off 9 (st_w (D2Q9 1)) (st_w (D2Q9 1)) mass_free (- sumf 9 (fun i => mass_free i * (ln (st_w (D2Q9 1) i / st_w (D2Q9 1) i) + st_w (D2Q9 1) i))) W).
  assert (E : entropyDerivative 9 (st_w (D2Q9 1)) (st_w (D2Q9 1)) mass_free = Ok (- sumf 9 (fun i => mass_free i * (ln (st_w (D2Q9 1) i / st_w (D2Q9 1) i) + st_w (D2Q9 1) i)))) by (unfold entropyDerivative; rewrite P; reflexivity).
  specialize (K E). assert (U := uniqueness_limite _ _ _ _ G K).
  assert (S1 : sumf 9 mass_free = 0) by (cbn; ring).
  assert (S2 : sumf 9 (fun i => st_w (D2Q9 1) i * mass_free i) = 1/3).
  { rewrite (sumf_ext 9 _ (fun i => w9 i * mass_free i)) by (intros i Hi; rewrite (st9 i Hi); reflexivity). unfold w9, vec. cbn [sumf nth mass_free]. field. }
  rewrite S1, S2 in U. lra.
Qed.
Print Assumptions C90_derivative_refuted.

(** ** C91: the pseudo-entropic regularisation. *)
Theorem C91_minimal_partial : forall t s e nodes f n, t = Stencil_D2Q9 \/ (t = Stencil_D3Q19 /\ e = false) -> s <> 0 -> NoDup nodes -> In n nodes ->
  let r := if e then PSEUDO_ENTROPY_MAXIMIZATION_WITH_E else PSEUDO_ENTROPY_MAXIMIZATION in
  let st := stencil_of t s in
  let agrees := if e then same_deviatoric st else same_moments st in
  agrees (f n) (regularize r t nodes f n) /\
  forall g, agrees (f n) g -> pseudo_entropy st (regularize r t nodes f n) <= pseudo_entropy st g /\
    (pseudo_entropy st g = pseudo_entropy st (regularize r t nodes f n) -> same_populations st g (regularize r t nodes f n)).
Proof. exact field_minimal. Qed.
Print Assumptions C91_minimal_partial.
Example C91_minimal_partial_ex : forall i, (i < 9)%nat -> regularize PSEUDO_ENTROPY_MAXIMIZATION Stencil_D2Q9 [0%nat] (fun _ => post9) 0%nat i = reg9 i /\ post9 0%nat <> reg9 0%nat.
Proof.
  intros i Hi. split.
  - rewrite <- (reg_ok post9 i (fun _ _ => eq_refl) Hi). unfold regularize. cbn [regularizer]. apply (proj1 (stab_nodes_ok Stab_D2Q9 [0%nat] (fun _ => post9) (NoDup_cons 0%nat (@in_nil nat 0%nat) (NoDup_nil nat)))); [left; reflexivity|exact Hi].
  - unfold post9, reg9, w9, vec. cbn [nth]. lra.
Qed.

Theorem C91_idempotent : forall t s e nodes f n, t = Stencil_D2Q9 \/ (t = Stencil_D3Q19 /\ e = false) -> s <> 0 -> NoDup nodes -> In n nodes ->
  let r := if e then PSEUDO_ENTROPY_MAXIMIZATION_WITH_E else PSEUDO_ENTROPY_MAXIMIZATION in
  forall i, (i < st_Q (stencil_of t s))%nat -> regularize r t nodes (regularize r t nodes f) n i = regularize r t nodes f n i.
Proof. exact field_twice. Qed.
Print Assumptions C91_idempotent.
Example C91_idempotent_ex : NoDup [0%nat; 1%nat] /\ In 1%nat [0%nat; 1%nat].
Proof. split; [repeat constructor; cbn; lia|cbn; tauto]. Qed.

Theorem C91_others : forall r t nodes f n, NoDup nodes -> ~ In n nodes -> forall i, regularize r t nodes f n i = f n i.
Proof. exact field_others. Qed.
Print Assumptions C91_others.
Example C91_others_ex : regularize PSEUDO_ENTROPY_MAXIMIZATION Stencil_D2Q9 [0%nat] (fun _ => post9) 1%nat 0%nat = post9 0%nat.
Proof. apply (C91_others PSEUDO_ENTROPY_MAXIMIZATION Stencil_D2Q9 [0%nat] (fun _ => post9)); [repeat constructor; cbn; tauto|cbn; lia]. Qed.

Theorem C91_equilibrium : forall t s rho u nodes f n, t = Stencil_D2Q9 \/ t = Stencil_D3Q19 -> s <> 0 -> NoDup nodes -> In n nodes ->
  let st := stencil_of t s in (forall i, (i < st_Q st)%nat -> f n i = old_eq BGKStandard st rho u i) ->
  forall i, (i < st_Q st)%nat -> regularize PSEUDO_ENTROPY_MAXIMIZATION t nodes f n i = f n i.
Proof. exact field_equilibrium. Qed.
Print Assumptions C91_equilibrium.
Example C91_equilibrium_ex : forall i, (i < 19)%nat ->
  regularize PSEUDO_ENTROPY_MAXIMIZATION Stencil_D3Q19 [0%nat] (fun _ => old_eq BGKStandard (D3Q19 1) 1 (fun _ => 1/10)) 0%nat i = old_eq BGKStandard (D3Q19 1) 1 (fun _ => 1/10) i.
Proof.
  intros i Hi. apply (C91_equilibrium Stencil_D3Q19 1 1 (fun _ => 1/10) [0%nat] (fun _ => old_eq BGKStandard (D3Q19 1) 1 (fun _ => 1/10))); try lra; try (cbn; tauto); try exact Hi.
  repeat constructor; cbn; tauto.
Qed.

(** The variant "with e" changes the momentum flux, already of an equilibrium. *)
Theorem C91_with_e_refuted : exists f, (forall i, (i < 9)%nat -> f i = old_eq BGKStandard (D2Q9 1) 1 (fun _ => 1/2) i) /\
  ~ same_moments (D2Q9 1) f (regularize PSEUDO_ENTROPY_MAXIMIZATION_WITH_E Stencil_D2Q9 [0%nat] (fun _ => f) 0%nat).
Proof.
  exists (old_eq BGKStandard (D2Q9 1) 1 (fun _ => 1/2)). split; [intros; reflexivity|]. intros (_ & _ & M).
  set (f := old_eq BGKStandard (D2Q9 1) 1 (fun _ => 1/2)) in *.
  assert (E : forall i, (i < st_Q (D2Q9 1))%nat -> regularize PSEUDO_ENTROPY_MAXIMIZATION_WITH_E Stencil_D2Q9 [0%nat] (fun _ => f) 0%nat i = stabilize Stab_D2Q9_with_e f i).
  { intros i Hi. unfold regularize. cbn [regularizer]. apply (proj1 (stab_nodes_ok Stab_D2Q9_with_e [0%nat] (fun _ => f) (NoDup_cons 0%nat (@in_nil nat 0%nat) (NoDup_nil nat)))); [left; reflexivity|exact Hi]. }
  assert (T := with_e_trace 1 f). cbv zeta in T.
  assert (A0 := M 0%nat 0%nat ltac:(cbn; lia) ltac:(cbn; lia)). assert (A1 := M 1%nat 1%nat ltac:(cbn; lia) ltac:(cbn; lia)).
  rewrite (ProofEqMoments.moment2_ext _ _ _ 0 0 E) in A0. rewrite (ProofEqMoments.moment2_ext _ _ _ 1 1 E) in A1. rewrite A0, A1 in T.
  assert (S0 := ProofOldNode2.eq_stress BGKStandard Stencil_D2Q9 1 1 (fun _ => 1/2) 0 0 eq_refl R1_neq_R0 I ltac:(cbn; lia) ltac:(cbn; lia)).
  assert (S1 := ProofOldNode2.eq_stress BGKStandard Stencil_D2Q9 1 1 (fun _ => 1/2) 1 1 eq_refl R1_neq_R0 I ltac:(cbn; lia) ltac:(cbn; lia)).
  assert (S2 := old_eq_mass Stencil_D2Q9 1 eq_refl R1_neq_R0 BGKStandard 1 (fun _ => 1/2)).
  cbv zeta in S0, S1, S2. change (stencil_of Stencil_D2Q9 1) with (D2Q9 1) in S0, S1, S2. fold f in S0, S1, S2. rewrite S0, S1, S2 in T. unfold delta in T. cbn [Nat.eqb D2Q9 st_cs2 eq_mass] in T. lra.
Qed.
Print Assumptions C91_with_e_refuted.

(** On D3Q15 the scheme has no effect and the result is not minimal. *)
Definition ghost15 (i : nat) : R := vec [2/9; 1/9; 1/9; 1/9; 1/9; 1/9; 1/9; 1/36; 0; 0; 1/36; 0; 1/36; 1/36; 0] i.
Theorem C91_no_effect_refuted : exists f g, same_moments (D3Q15 1) f g /\
  pseudo_entropy (D3Q15 1) g < pseudo_entropy (D3Q15 1) (regularize PSEUDO_ENTROPY_MAXIMIZATION Stencil_D3Q15 [0%nat] (fun _ => f) 0%nat).
Proof.
  exists ghost15, w15. split.
  - unfold same_moments. split; [unfold mass, ghost15, w15; nine; lra|]. split.
    + intros a Ha. cbn in Ha. unfold momentum, ghost15, w15. do 3 (destruct a as [|a]; [nine; lra|]). lia.
    + intros a b Ha Hb. cbn in Ha, Hb. unfold moment2, ghost15, w15. do 3 (destruct a as [|a]; [do 3 (destruct b as [|b]; [nine; lra|]); lia|]). lia.
  - rewrite regularize_stencil by discriminate. unfold pseudo_entropy, ghost15, w15. cbn [D3Q15 st_w]. nine. lra.
Qed.
Print Assumptions C91_no_effect_refuted.

(** The schemes without a processor have no effect on any stencil. *)
Theorem C91_ignored_schemes : forall r t nodes f, r <> PSEUDO_ENTROPY_MAXIMIZATION -> r <> PSEUDO_ENTROPY_MAXIMIZATION_WITH_E -> regularize r t nodes f = f.
Proof. intros r t nodes f H1 H2. apply regularize_none; [exact H1|left; exact H2]. Qed.
Print Assumptions C91_ignored_schemes.
Example C91_ignored_schemes_ex : regularize ENTROPY_MAXIMIZATION Stencil_D2Q9 [0%nat] (fun _ => post9) = (fun _ => post9).
Proof. reflexivity. Qed.
