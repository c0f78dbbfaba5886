(** Statements of PropEntropic assembled from the lemmas; concrete runs. *)
From Coq Require Import QArith Qreals.
From Verif Require Import Prelude StencilData StabilizerData ModelStencils SpecStencils SpecCollision BigSum ProofStencils ProofEqMoments ProofCollideAll
  ModelConfigNames ModelEquilibria ModelCollision ModelOldCollision SpecOldCollision ProofOldCollision ProofOldNode ProofOldNode2 ModelEntropic SpecEntropic ProofKBC ProofKBC9
  ProofKBCEq ProofKBCNode ProofKBCFix ProofStabilizer ProofStabilizer2 ProofStabilizer3 ProofEst ProofEntropicAll ProofEntropicEq ProofEntropicRefuted ProofEntropicRefuted2.
Local Open Scope R_scope.

Lemma make_inv t s nu dt m : make_entropic t s nu dt = Ok m -> 0 < nu /\ 0 < dt /\ om_t m = t /\ om_s m = s /\ om_tau m = nu / (dt * st_cs2 (stencil_of t s)).
Proof.
  unfold make_entropic, calculateRelaxationParameter. destruct (Rlt_dec 0 nu); [|discriminate]. destruct (Rlt_dec 0 dt); [|discriminate]. cbn [obind].
  intros E. injection E as <-. cbn. repeat split; assumption.
Qed.
Lemma make_tau t s nu dt m : closed_form t = true -> s <> 0 -> make_entropic t s nu dt = Ok m -> om_tau m + 1/2 <> 0.
Proof.
  intros Ct Hs H. destruct (make_inv _ _ _ _ _ H) as (A & B & _ & _ & ->). assert (C : 0 < st_cs2 (stencil_of t s)).
  { destruct t; try discriminate; cbn [stencil_of D2Q9 D3Q15 D3Q19 D3Q27 RD3Q27 D3Q13 D2Q25H st_cs2]; assert (0 < s * s) by (destruct (Rdichotomy _ _ Hs); nra); try lra; apply Rdiv_lt_0_compat; try lra. }
  assert (0 < nu / (dt * st_cs2 (stencil_of t s))) by (apply Rdiv_lt_0_compat; [exact A|apply Rmult_lt_0_compat; assumption]). lra.
Qed.

Lemma flux_made c s nu dt m f u o : c <> EntropicStabilized -> s <> 0 -> make_entropic Stencil_D2Q9 s nu dt = Ok m -> entropic_node c m false f u = Ok o ->
  let st := D2Q9 s in
  let flux := match c with KBCStandard => entropic_flux s | _ => standard_flux st end in
  forall a b, (a < 2)%nat -> (b < 2)%nat ->
  moment2 st (no_f o) a b - flux (mass st f) (velocity st f) a b =
  (1 - 1 / (nu / (dt * st_cs2 st) + 1/2)) * (moment2 st f a b - flux (mass st f) (velocity st f) a b).
Proof.
  intros Hc Hs Hm H st flux a b Ha Hb. assert (T := make_tau Stencil_D2Q9 _ _ _ _ eq_refl Hs Hm). destruct (make_inv _ _ _ _ _ Hm) as (_ & _ & Et & Es & Ex).
  rewrite <- Es in Hs. assert (F := kbc9_flux c m f u o (conj Hc Et) Hs T H a b Ha Hb). cbv zeta in F. rewrite Es in F. fold st in F.
  change (stencil_of Stencil_D2Q9 s) with st in Ex. rewrite <- Ex. rewrite F. unfold flux. destruct c; ring.
Qed.

Lemma flux_made15 nu dt m f u o : make_entropic Stencil_D3Q15 1 nu dt = Ok m -> entropic_node KBCStandard m false f u = Ok o ->
  let st := D3Q15 1 in forall a, (a < 3)%nat -> stress st (no_f o) a a = (1 - 1 / (nu / (dt * st_cs2 st) + 1/2)) * stress st f a a.
Proof.
  intros Hm H st a Ha. assert (T := make_tau Stencil_D3Q15 1 nu dt m eq_refl R1_neq_R0 Hm). destruct (make_inv _ _ _ _ _ Hm) as (_ & _ & Et & Es & Ex).
  assert (V := v15 m f u o Es Et H). destruct (entropic15_inv m false f u o Es Et H) as (feq & R & F & _). fold st in R, F, V.
  assert (G := result_stress _ _ _ _ _ _ R V a a T Ha Ha eq_refl).
  destruct (result_conserves _ _ _ _ _ _ R V) as [M J].
  assert (P := kr_pos _ _ _ _ _ _ R).
  assert (E : moment2 st feq a a = mass st f * (st_cs2 st + no_u o a * no_u o a)).
  { rewrite (moment2_ext st feq _ a a F). assert (K := eq_stress BGKStandard Stencil_D3Q15 1 (mass st f) (no_u o) a a eq_refl R1_neq_R0 I Ha Ha).
    cbv zeta in K. change (stencil_of Stencil_D3Q15 1) with st in K. rewrite K.
    unfold delta. rewrite Nat.eqb_refl. ring. }
  unfold stress. rewrite G, M, (J a Ha), E, (V a Ha). change (stencil_of Stencil_D3Q15 1) with st in Ex. rewrite <- Ex. unfold delta. rewrite Nat.eqb_refl.
  set (r := 1 / (om_tau m + 1/2)). field. lra.
Qed.

Lemma contracts_made c s nu dt m f u g o : c <> EntropicStabilized -> s <> 0 -> make_entropic Stencil_D2Q9 s nu dt = Ok m -> entropic_node c m false f u = Ok o ->
  let st := D2Q9 s in
  (forall i, (i < 9)%nat -> entropic_eq c Stencil_D2Q9 s (mass st f) (velocity st f) i = Ok (g i)) -> (forall i, (i < 9)%nat -> 0 < g i) ->
  distance st g (no_f o) <= (1 - 1 / (nu / (dt * st_cs2 st) + 1/2)) * (1 - 1 / (nu / (dt * st_cs2 st) + 1/2)) * distance st g f /\ distance st g (no_f o) <= distance st g f.
Proof.
  intros Hc Hs Hm H st Hg Hp. assert (T := make_tau Stencil_D2Q9 _ _ _ _ eq_refl Hs Hm). destruct (make_inv _ _ _ _ _ Hm) as (A & B & Et & Es & Ex).
  subst s. assert (D := kbc9_contracts c m f u g o (conj Hc Et) Hs T H Hg Hp). cbv zeta in D. fold st in D.
  change (stencil_of Stencil_D2Q9 (om_s m)) with st in Ex. rewrite <- Ex. split; [exact D|].
  assert (C : 0 < st_cs2 st) by (cbn; assert (0 < om_s m * om_s m) by (destruct (Rdichotomy _ _ Hs); nra); lra).
  assert (X : 0 < om_tau m) by (rewrite Ex; apply Rdiv_lt_0_compat; [exact A|apply Rmult_lt_0_compat; assumption]).
  assert (Y : 0 <= distance st g f).
  { unfold distance. apply sumf_nonneg. intros i Hi. apply Rmult_le_pos; [apply Rle_0_sqr|]. apply Rlt_le, Rinv_0_lt_compat, Hp. exact Hi. }
  assert (Z : -1 <= 1 - 1 / (om_tau m + 1/2) <= 1).
  { assert (L : 0 < 1 / (om_tau m + 1/2)) by (apply Rdiv_lt_0_compat; lra). assert (U : 1 / (om_tau m + 1/2) <= 2); [|lra].
    apply (Rmult_le_reg_r (om_tau m + 1/2)); [lra|]. unfold Rdiv. rewrite Rmult_assoc, Rinv_l by lra. lra. }
  eapply Rle_trans; [exact D|]. rewrite <- (Rmult_1_l (distance st g f)) at 2. apply Rmult_le_compat_r; [exact Y|]. nra.
Qed.

Lemma optimal_made c s nu dt m f u g o : c <> EntropicStabilized -> s <> 0 -> make_entropic Stencil_D2Q9 s nu dt = Ok m -> entropic_node c m false f u = Ok o ->
  let st := D2Q9 s in
  (forall i, (i < 9)%nat -> entropic_eq c Stencil_D2Q9 s (mass st f) (velocity st f) i = Ok (g i)) -> (forall i, (i < 9)%nat -> 0 < g i) ->
  exists d t0, no_moments st d /\
    (forall i, (i < 9)%nat -> bgk_state (nu / (dt * st_cs2 st)) f g i = no_f o i + t0 * d i) /\
    (t0 = 0 /\ sumf 9 (fun i => d i * d i / g i) < 1 / 10^16 \/
     forall t, distance st g (no_f o) <= distance st g (fun i => no_f o i + t * d i)).
Proof.
  intros Hc Hs Hm H st Hg Hp. assert (T := make_tau Stencil_D2Q9 _ _ _ _ eq_refl Hs Hm). destruct (make_inv _ _ _ _ _ Hm) as (A & B & Et & Es & Ex).
  subst s. change (stencil_of Stencil_D2Q9 (om_s m)) with st in Ex. rewrite <- Ex. exact (kbc9_optimal c m f u g o (conj Hc Et) Hs T H Hg Hp).
Qed.

Lemma contracts_made15 nu dt m f u o : make_entropic Stencil_D3Q15 1 nu dt = Ok m -> entropic_node KBCStandard m false f u = Ok o ->
  let st := D3Q15 1 in let g := old_eq BGKStandard st (mass st f) (velocity st f) in
  (forall i, (i < 15)%nat -> 0 < g i) ->
  distance st g (no_f o) <= (1 - 1 / (nu / (dt * st_cs2 st) + 1/2)) * (1 - 1 / (nu / (dt * st_cs2 st) + 1/2)) * distance st g f.
Proof.
  intros Hm H st g Hp. assert (T := make_tau Stencil_D3Q15 1 nu dt m eq_refl R1_neq_R0 Hm). destruct (make_inv _ _ _ _ _ Hm) as (_ & _ & Et & Es & Ex).
  assert (V := v15 m f u o Es Et H). destruct (entropic15_inv m false f u o Es Et H) as (feq & R & F & _). fold st in R, F, V.
  assert (G : forall i, (i < 15)%nat -> g i = feq i).
  { intros i Hi. rewrite (F i Hi). unfold g. apply old_eq_ext. intros a Ha. symmetry. apply V. exact Ha. }
  change (stencil_of Stencil_D3Q15 1) with st in Ex. rewrite <- Ex.
  rewrite (distance_ext st g feq (no_f o) (no_f o) G (fun i _ => eq_refl)), (distance_ext st g feq f f G (fun i _ => eq_refl)).
  apply (result_contracts _ _ _ _ _ _ R); [|exact T]. intros i Hi. rewrite <- (G i Hi). apply Hp. exact Hi.
Qed.

(** ** EntropicStabilized *)
Lemma above_false Q f i : (i < Q)%nat -> f i <= 1 / 10^11 -> above Q f = false.
Proof.
  induction Q as [|n IH]; intros Hi L; [lia|]. unfold above. fold (above n f). destruct (Rlt_dec _ _) as [G|_]; [|reflexivity].
  apply IH; [|exact L]. destruct (Nat.eq_dec i n) as [->|]; [lra|lia].
Qed.
Lemma est_stress m f u o : om_s m <> 0 -> entropic_node EntropicStabilized m false f u = Ok o ->
  let st := stencil_of (om_t m) (om_s m) in
  exists w2, ((exists i, (i < st_Q st)%nat /\ f i <= 1 / 10^11) -> w2 = 0) /\
  forall a b, (a < st_D st)%nat -> (b < st_D st)%nat -> stress st (no_f o) a b = (1 - 1 / (om_tau m + 1/2)) * (1 + w2) * stress st f a b.
Proof.
  intros Hs H st. assert (N := node_conserves EntropicStabilized m f u o). cbn [entropic_node] in H.
  assert (Kc : kbc_case EntropicStabilized m /\ exists k, est_kind (om_t m) = Some k).
  { cbn [kbc_case]. destruct (est_inv m false f u o H) as (k & w2 & Hk & _). split; [destruct (om_t m); try discriminate; tauto|exists k; exact Hk]. }
  destruct Kc as [Kc [k Hk]]. destruct (N Kc Hs H) as [[M J] [_ V]]. clear N. fold st in M, J, V.
  destruct (est_result m false f u o Hs H) as (Ct & Hr & Hp & Hu & w2 & Z & _ & _ & P). fold st in P, Hp, Z. exists w2. split.
  - intros (i & Hi & L). apply (Z k Hk). rewrite (above_false _ f i Hi L). apply andb_false_r.
  - intros a b Ha Hb. unfold stress. rewrite (P a b Ha Hb), M, (J a Ha), (J b Hb). unfold standard_flux. rewrite (V a Ha), (V b Hb).
    set (r := 1 / (om_tau m + 1/2)). field. lra.
Qed.

(** ** The regularisation of the field *)
Section Field.
  Variables (t : StencilType) (s : R) (e : bool) (nodes : list nat) (f : nat -> nat -> R) (n : nat).
  Hypothesis Ht : t = Stencil_D2Q9 \/ (t = Stencil_D3Q19 /\ e = false).
  Hypothesis Hs : s <> 0.
  Hypothesis Hd : NoDup nodes.
  Hypothesis Hn : In n nodes.
  Let r := if e then PSEUDO_ENTROPY_MAXIMIZATION_WITH_E else PSEUDO_ENTROPY_MAXIMIZATION.
  Let st := stencil_of t s.
  Let agrees := if e then same_deviatoric st else same_moments st.
  Let kk := match t with Stencil_D2Q9 => if e then Stab_D2Q9_with_e else Stab_D2Q9 | _ => Stab_D3Q19 end.

  Lemma reg_run f0 : regularize r t nodes f0 = stab_nodes kk nodes f0.
  Proof. unfold regularize, r, kk. destruct Ht as [->|[-> ->]]; [destruct e; reflexivity|reflexivity]. Qed.
  Lemma reg_st : stab_stencil kk s = st.
  Proof. unfold st, kk. destruct Ht as [->|[-> ->]]; [destruct e; reflexivity|reflexivity]. Qed.
  Lemma reg_kept f0 g0 : kept kk s f0 g0 <-> agrees f0 g0.
  Proof. unfold agrees, kept, st, kk. destruct Ht as [->|[-> ->]]; [destruct e; reflexivity|reflexivity]. Qed.
  Lemma reg_node f0 i : (i < st_Q st)%nat -> regularize r t nodes f0 n i = stabilize kk (f0 n) i.
  Proof. intros Hi. rewrite reg_run. apply (stab_nodes_ok kk nodes f0 Hd); [exact Hn|]. rewrite <- (stab_Q kk s), reg_st. exact Hi. Qed.

  Lemma agrees_ext g h h' : (forall i, (i < st_Q st)%nat -> h i = h' i) -> agrees g h -> agrees g h'.
  Proof.
    intros E. unfold agrees. destruct e.
    - intros (A & B & C). unfold same_deviatoric, deviatoric in *. rewrite <- (mass_ext st h h' E). split; [exact A|]. split.
      + intros a Ha. rewrite <- (momentum_ext st h h' a E). apply B. exact Ha.
      + intros a b Ha Hb. rewrite <- (moment2_ext st h h' a b E). rewrite <- (sumf_ext (st_D st) (fun c => moment2 st h c c) (fun c => moment2 st h' c c)) by (intros c Hc; apply (moment2_ext st h h' c c E)).
        apply C; assumption.
    - intros (A & B & C). unfold same_moments. rewrite <- (mass_ext st h h' E). split; [exact A|]. split.
      + intros a Ha. rewrite <- (momentum_ext st h h' a E). apply B. exact Ha.
      + intros a b Ha Hb. rewrite <- (moment2_ext st h h' a b E). apply C; assumption.
  Qed.
  Lemma pe_ext h h' : (forall i, (i < st_Q st)%nat -> h i = h' i) -> pseudo_entropy st h = pseudo_entropy st h'.
  Proof. intros E. unfold pseudo_entropy. apply sumf_ext. intros i Hi. rewrite (E i Hi). reflexivity. Qed.

  Lemma field_minimal : agrees (f n) (regularize r t nodes f n) /\
    forall g, agrees (f n) g -> pseudo_entropy st (regularize r t nodes f n) <= pseudo_entropy st g /\
      (pseudo_entropy st g = pseudo_entropy st (regularize r t nodes f n) -> same_populations st g (regularize r t nodes f n)).
  Proof.
    assert (E : forall i, (i < st_Q st)%nat -> stabilize kk (f n) i = regularize r t nodes f n i) by (intros i Hi; symmetry; apply reg_node; exact Hi).
    split; [apply (agrees_ext _ _ _ E), reg_kept, stab_kept|].
    intros g Hg. apply reg_kept in Hg. destruct (stab_minimal kk s Hs (f n) g Hg) as [A B]. rewrite reg_st in A, B. rewrite <- (pe_ext _ _ E).
    split; [exact A|]. intros X i Hi. rewrite <- (E i Hi). apply (B X i Hi).
  Qed.
  Lemma field_twice i : (i < st_Q st)%nat -> regularize r t nodes (regularize r t nodes f) n i = regularize r t nodes f n i.
  Proof.
    intros Hi. rewrite !(reg_node _ i Hi). assert (Hk : (i < stab_size kk)%nat) by (rewrite <- (stab_Q kk s), reg_st; exact Hi).
    rewrite <- (stab_twice kk s Hs (f n) i Hk). unfold stabilize at 1 3. apply sumf_ext. intros j Hj. f_equal. apply reg_node. rewrite <- reg_st, stab_Q. exact Hj.
  Qed.
End Field.

Lemma field_others r t nodes f n : NoDup nodes -> ~ In n nodes -> forall i, regularize r t nodes f n i = f n i.
Proof.
  intros Hd Hn i. unfold regularize. destruct (regularizer r) as [e|]; [|reflexivity]. unfold stab_apply. destruct (stab_of t e) as [k|]; [|reflexivity].
  apply (stab_nodes_ok k nodes f Hd). left. exact Hn.
Qed.

Lemma field_equilibrium t s rho u nodes f n : t = Stencil_D2Q9 \/ t = Stencil_D3Q19 -> s <> 0 -> NoDup nodes -> In n nodes ->
  let st := stencil_of t s in (forall i, (i < st_Q st)%nat -> f n i = old_eq BGKStandard st rho u i) ->
  forall i, (i < st_Q st)%nat -> regularize PSEUDO_ENTROPY_MAXIMIZATION t nodes f n i = f n i.
Proof.
  intros Ht Hs Hd Hn st Hf i Hi. set (k := match t with Stencil_D2Q9 => Stab_D2Q9 | _ => Stab_D3Q19 end).
  assert (Es : stab_stencil k s = st) by (unfold k, st; destruct Ht as [->| ->]; reflexivity).
  assert (Kq : stab_size k = st_Q st) by (rewrite <- Es; symmetry; apply stab_Q).
  assert (E : regularize PSEUDO_ENTROPY_MAXIMIZATION t nodes f n i = stabilize k (f n) i).
  { unfold regularize, k. destruct Ht as [->| ->]; apply (proj1 (stab_nodes_ok _ nodes f Hd) n i Hn); exact Hi. }
  rewrite E, (Hf i Hi). rewrite <- Es. rewrite <- (stab_equilibrium k s rho u i Hs) by (try (unfold k; destruct Ht as [->| ->]; discriminate); rewrite Kq; exact Hi).
  unfold stabilize at 1 2. apply sumf_ext. intros j Hj. f_equal. rewrite Es. apply Hf. rewrite <- Kq. exact Hj.
Qed.

(** ** Runs *)
Lemma central_w i : (i < 9)%nat -> feq_D2Q9 (1/2) (- (0 * 0 + 0 * 0) / (2 * (st_cs2 (D2Q9 1) / (1 * 1)))) (1 / (st_cs2 (D2Q9 1) / (1 * 1))) 1 (vec [0; 0]) i = w9 i.
Proof. intros Hi. unfold feq_D2Q9. cbv zeta. unfold ModelOldCollision.plus, minus, sp, w9. cbn [D2Q9 st_cs2]. revert i Hi. apply all9; unfold vec; cbn [nth]; field. Qed.
Lemma standard_w i : (i < 9)%nat -> entropic_D2Q9 1 0 0 i = w9 i.
Proof.
  intros Hi. unfold entropic_D2Q9. cbv zeta. rewrite !Rmult_0_l, Rplus_0_r, sqrt_1. unfold w9. assert (0 < sqrt 3) by (apply sqrt_lt_R0; lra).
  revert i Hi. apply all9; unfold vec; cbn [nth]; field; lra.
Qed.
Lemma ghost_raw : raw_D2Q9 1 1 ghostly 0%nat = 0 /\ raw_D2Q9 1 1 ghostly 1%nat = 0.
Proof. unfold raw_D2Q9, ghostly, w9, ratio9. nine. split; field. Qed.

Lemma ghost_runs c : exists o, entropic_node c model9 false ghostly (fun _ => 0) = Ok o.
Proof.
  destruct ghost_raw as [U0 U1]. assert (N : 9%nat = st_Q (D2Q9 1)) by reflexivity. destruct c.
  - unfold entropic_node. cbn [model9 old_new om_t]. unfold node_kbc_D2Q9. cbn [model9 old_new om_s om_tau]. cbv zeta. rewrite ghostly_mass, checked_ok by lra. rewrite U0, U1.
    destruct (relax_runs 9 1 (kinematic_D2Q9 1 (0/1) (0/1)) (shear_D2Q9 1) ghostly (entropic_D2Q9 1 (0/1) (0/1))) as [f' E].
    { intros i Hi. replace (0/1) with 0 by field. rewrite (standard_w i Hi). apply Rgt_not_eq, w9_pos. exact Hi. }
    fold model9. rewrite E. eexists; reflexivity.
  - unfold entropic_node. cbn [model9 old_new om_t]. unfold node_kbc_central. cbn [model9 old_new om_s om_tau]. cbv zeta. rewrite ghostly_mass, checked_ok by lra. rewrite U0, U1.
    match goal with |- context [kbc_relax 9 1 ?k ?s ghostly ?e] => destruct (relax_runs 9 1 k s ghostly e) as [f' E] end.
    { intros i Hi. replace (0/1) with 0 by field. rewrite (central_w i Hi). apply Rgt_not_eq, w9_pos. exact Hi. }
    fold model9. rewrite E. eexists; reflexivity.
  - destruct growth as [_ (o & E & _)]. exists o. exact E.
Qed.
Lemma ghost_all c : exists x', entropic_collideAll c model9 false [0%nat] {| fl_f := fun _ => ghostly; fl_rho := fun _ => 1; fl_u := fun _ => (fun _ => 0) |} = Ok x'.
Proof. destruct (ghost_runs c) as [o E]. unfold entropic_collideAll. destruct c; cbn [entropic_accepts model9 old_new om_t entropic_loop fl_f fl_u]; fold model9; rewrite E; eexists; reflexivity. Qed.
Lemma model9_made : make_entropic Stencil_D2Q9 1 (1/3) 1 = Ok model9.
Proof. destruct growth as [E _]. exact E. Qed.

Lemma rest_velocity a : (a < 2)%nat -> velocity (D2Q9 1) ghostly a = 0.
Proof. intros Ha. unfold velocity, momentum, mass. change (st_Q (D2Q9 1)) with 9%nat. rewrite ghostly_mass. apply ghostly_u. exact Ha. Qed.
Lemma ghost_eq c : c <> EntropicStabilized -> exists g, (forall i, (i < 9)%nat -> entropic_eq c Stencil_D2Q9 1 (mass (D2Q9 1) ghostly) (velocity (D2Q9 1) ghostly) i = Ok (g i)) /\ forall i, (i < 9)%nat -> 0 < g i.
Proof.
  intros Hc. exists w9. split; [|exact w9_pos]. intros i Hi. change (mass (D2Q9 1) ghostly) with (sumf 9 ghostly). rewrite ghostly_mass.
  assert (V0 := rest_velocity 0 (Nat.lt_0_succ 1)). assert (V1 := rest_velocity 1 (Nat.lt_succ_diag_r 1)). set (v := velocity (D2Q9 1) ghostly) in *.
  destruct c; [| |congruence].
  - destruct (standard_eq_runs 1 1 v i) as [g E]; try rewrite V0; try rewrite V1; try lra. rewrite E. f_equal.
    rewrite (kbc_feq_eq KBCStandard 1 1 v i g ltac:(discriminate) R1_neq_R0 Hi E). cbn [kbc_feq]. rewrite V0, V1. replace (0/1) with 0 by field. apply standard_w. exact Hi.
  - unfold entropic_eq. cbv zeta. unfold eq_asserts. destruct (Rlt_dec 0 1); [|lra]. rewrite V0, V1. destruct (Rlt_dec 0 (10^15)); [|lra]. cbn [andb].
    f_equal. transitivity (old_eq MRTStandard (D2Q9 1) 1 (fun _ => 0) i).
    { apply old_eq_ext. intros a Ha. do 2 (destruct a as [|a]; [assumption|]). cbn in Ha. lia. }
    rewrite (kbc_feq_eq KBCCentral 1 1 (fun _ => 0) i (old_eq MRTStandard (D2Q9 1) 1 (fun _ => 0) i) ltac:(discriminate) R1_neq_R0 Hi) by
      (unfold entropic_eq, eq_asserts; cbv zeta; destruct (Rlt_dec 0 1); [|lra]; destruct (Rlt_dec 0 (10^15)); [reflexivity|lra]).
    cbn [kbc_feq]. replace (0/1) with 0 by field. apply central_w. exact Hi.
Qed.
