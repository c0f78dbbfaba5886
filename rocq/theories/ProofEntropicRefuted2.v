(** EntropicStabilized: growth of the stress, derivative of the entropy, stencils; the stabilizer on
    fields. *)
From Coq Require Import QArith Qreals.
From Verif Require Import Prelude StencilData StabilizerData ModelStencils SpecStencils SpecCollision BigSum ProofStencils ProofEqMoments ProofCollideAll
  ModelConfigNames ModelEquilibria ModelCollision ModelOldCollision SpecOldCollision ProofOldCollision ProofOldNode ProofOldNode2 ModelEntropic SpecEntropic ProofKBC ProofKBC9
  ProofStabilizer ProofStabilizer2 ProofStabilizer3 ProofEst ProofEntropicAll ProofEntropicRefuted ProofDeriv.
Local Open Scope R_scope.

(** ** Stencils *)
Lemma wrong_stencil c m init n nodes x : ~ (match c with
    | KBCStandard => om_t m = Stencil_D2Q9 \/ om_t m = Stencil_D3Q15
    | KBCCentral => om_t m = Stencil_D2Q9
    | EntropicStabilized => om_t m = Stencil_D2Q9 \/ om_t m = Stencil_D3Q19
    end) -> entropic_collideAll c m init (n :: nodes) x = Throw.
Proof.
  intros H. unfold entropic_collideAll. cbn [entropic_loop]. unfold entropic_node, node_est, entropic_accepts, est_kind.
  destruct c, (om_t m); try reflexivity; exfalso; apply H; tauto.
Qed.

(** ** Stabilizer on the field *)
Lemma stab_nodes_ok k nodes : forall f, NoDup nodes ->
  (forall n i, In n nodes -> (i < stab_size k)%nat -> stab_nodes k nodes f n i = stabilize k (f n) i) /\
  (forall n i, ~ In n nodes \/ (stab_size k <= i)%nat -> stab_nodes k nodes f n i = f n i).
Proof.
  induction nodes as [|m rest IH]; intros f Hd; [split; intros; [contradiction|reflexivity]|].
  inversion Hd as [|? ? Hm Hr]; subst. cbn [stab_nodes]. destruct (IH (upd f m (fun i => if Nat.ltb i (stab_size k) then stabilize k (f m) i else f m i)) Hr) as [A B]. split.
  - intros n i [<-|Hn] Hi.
    + rewrite (B m i (or_introl Hm)), upd_same. rewrite (proj2 (Nat.ltb_lt _ _) Hi). reflexivity.
    + rewrite (A n i Hn Hi). rewrite upd_other by (intros ->; contradiction). reflexivity.
  - intros n i H. rewrite B by (destruct H as [H|H]; [left; cbn in H; tauto|right; exact H]).
    destruct (Nat.eq_dec n m) as [->|Hn]; [|rewrite upd_other by exact Hn; reflexivity].
    rewrite upd_same. destruct H as [H|H]; [exfalso; apply H; left; reflexivity|]. apply Nat.ltb_ge in H. rewrite H. reflexivity.
Qed.

Lemma stab_of_stencil t e k s : stab_of t e = Some k -> stencil_of t s = stab_stencil k s /\ (k = Stab_D2Q9_with_e -> e = true).
Proof. destruct t, e; intros H; try discriminate H; injection H as <-; split; try reflexivity; congruence. Qed.

(** Schemes and stencils without effect. *)
Lemma regularize_none r t nodes f : r <> PSEUDO_ENTROPY_MAXIMIZATION -> r <> PSEUDO_ENTROPY_MAXIMIZATION_WITH_E \/ (t <> Stencil_D2Q9 /\ t <> Stencil_D3Q19) ->
  regularize r t nodes f = f.
Proof.
  intros H [H1|[H1 H2]]; unfold regularize, regularizer; destruct r; try congruence; try reflexivity; unfold stab_apply, stab_of; destruct t; try congruence; reflexivity.
Qed.
Lemma regularize_stencil r t nodes f : t <> Stencil_D2Q9 -> t <> Stencil_D3Q19 -> regularize r t nodes f = f.
Proof. intros H1 H2. unfold regularize, regularizer; destruct r; try reflexivity; unfold stab_apply, stab_of; destruct t; try congruence; reflexivity. Qed.

(** The variant with e loses the pressure. *)
Lemma with_e_trace s f : let st := D2Q9 s in
  moment2 st (stabilize Stab_D2Q9_with_e f) 0 0 + moment2 st (stabilize Stab_D2Q9_with_e f) 1 1 = 2/3 * (s * s) * mass st f.
Proof.
  cbv zeta. assert (Z : S2 Stab_D2Q9_with_e f 2 2 = 0) by (unfold S2; apply sumf_zero; intros i _; unfold c3, dirQ; rewrite c3_two; ring).
  change (D2Q9 s) with (stab_stencil Stab_D2Q9_with_e s). rewrite !moment2_S, mass_S. unfold S2.
  rewrite (sumf_ext _ (fun i => stabilize Stab_D2Q9_with_e f i * c3 Stab_D2Q9_with_e i 0 * c3 Stab_D2Q9_with_e i 0) (fun i => w3 Stab_D2Q9_with_e i * hat Stab_D2Q9_with_e f i * c3 Stab_D2Q9_with_e i 0 * c3 Stab_D2Q9_with_e i 0)) by (intros i Hi; rewrite (stabilize_hat _ _ _ Hi); ring).
  rewrite (sumf_ext _ (fun i => stabilize Stab_D2Q9_with_e f i * c3 Stab_D2Q9_with_e i 1 * c3 Stab_D2Q9_with_e i 1) (fun i => w3 Stab_D2Q9_with_e i * hat Stab_D2Q9_with_e f i * c3 Stab_D2Q9_with_e i 1 * c3 Stab_D2Q9_with_e i 1)) by (intros i Hi; rewrite (stabilize_hat _ _ _ Hi); ring).
  change (stab_size Stab_D2Q9_with_e) with 9%nat. cbn [sumf]. rewrite !hat_moments. unfold lin, quad, tr, dot3.
  unfold c3, w3, dirQ, wtQ. nine. unfold c3, w3, dirQ, wtQ. rewrite Z. field.
Qed.

(** ** Derivative of the entropy *)
Lemma positive_spec Q f : positive Q f = true <-> forall i, (i < Q)%nat -> 0 < f i.
Proof.
  induction Q as [|n IH]; [split; [intros; lia|reflexivity]|]. unfold positive. fold (positive n f). destruct (Rlt_dec 0 (f n)) as [P|P].
  - rewrite IH. split; intros H i Hi.
    + destruct (Nat.eq_dec i n) as [->|]; [exact P|apply H; lia].
    + apply H. lia.
  - split; [discriminate|]. intros H. exfalso. apply P, H. lia.
Qed.
Lemma entropy_ok Q w f h : entropy Q w f = Ok h -> h = H Q w f.
Proof. unfold entropy. destruct (positive Q f); [|discriminate]. intros E. injection E as <-. reflexivity. Qed.

Lemma deriv_term a d w : 0 < a -> 0 < w -> derivable_pt_lim (fun t => (a + t * d) * ln ((a + t * d) / w)) 0 (d * (ln (a / w) + 1)).
Proof.
  intros Ha Hw. assert (P : 0 < a / w) by (apply Rdiv_lt_0_compat; assumption).
  assert (L : derivable_pt_lim (fun t => a + t * d) 0 d).
  { eapply dl_eq; [apply dl_plus; [apply dl_const|apply dl_mult; [apply dl_id|apply dl_const]]|]. cbv beta. ring. }
  eapply dl_eq; [apply dl_mult; [exact L|apply (dl_comp ln (fun t => (a + t * d) / w)); [apply dl_divc; exact L|]]|].
  - replace ((a + 0 * d) / w) with (a / w) by (unfold Rdiv; ring). apply derivable_pt_lim_ln. exact P.
  - cbv beta. replace (a + 0 * d) with a by ring. field. lra.
Qed.
Lemma deriv_sum Q (g : nat -> R -> R) (l : nat -> R) : (forall i, (i < Q)%nat -> derivable_pt_lim (g i) 0 (l i)) -> derivable_pt_lim (fun t => sumf Q (fun i => g i t)) 0 (sumf Q l).
Proof.
  induction Q as [|n IH]; intros G; [apply derivable_pt_lim_const|].
  cbn [sumf]. apply (derivable_pt_lim_plus (fun t => sumf n (fun i => g i t)) (g n)); [apply IH; intros; apply G; lia|apply G; lia].
Qed.
Lemma H_deriv Q w f d : (forall i, (i < Q)%nat -> 0 < f i) -> (forall i, (i < Q)%nat -> 0 < w i) ->
  derivable_pt_lim (fun t => H Q w (fun i => f i + t * d i)) 0 (- sumf Q (fun i => d i * (ln (f i / w i) + 1))).
Proof.
  intros Hf Hw. unfold H. apply (derivable_pt_lim_opp (fun t => sumf Q (fun i => (f i + t * d i) * ln ((f i + t * d i) / w i)))).
  apply (deriv_sum Q (fun i t => (f i + t * d i) * ln ((f i + t * d i) / w i))). intros i Hi. apply deriv_term; auto.
Qed.
Lemma derivative_off Q w f d D : (forall i, (i < Q)%nat -> 0 < w i) -> entropyDerivative Q w f d = Ok D ->
  derivable_pt_lim (fun t => H Q w (fun i => f i + t * d i)) 0 (D - sumf Q d + sumf Q (fun i => w i * d i)).
Proof.
  intros Hw. unfold entropyDerivative. destruct (positive Q f) eqn:P; [|discriminate]. intros E. injection E as <-.
  replace (- _ - _ + _) with (- sumf Q (fun i => d i * (ln (f i / w i) + 1))); [apply H_deriv; [apply positive_spec; exact P|exact Hw]|].
  rewrite (sumf_ext Q (fun i => d i * (ln (f i / w i) + 1)) (fun i => d i * (ln (f i / w i) + w i) + (d i - w i * d i))) by (intros; ring).
  rewrite sumf_plus, sumf_minus. ring.
Qed.

(** ** Growing stress *)
Definition ratio9 : nat -> R := vec [6/5; 4/5; 2/5; 4/5; 2/5; 9/5; 9/5; 9/5; 9/5].
Definition w9 : nat -> R := vec [4/9; 1/9; 1/9; 1/9; 1/9; 1/36; 1/36; 1/36; 1/36].
Definition ghostly (i : nat) : R := w9 i * ratio9 i.
Definition reg9 (i : nat) : R := w9 i * vec [1; 4/5; 6/5; 4/5; 6/5; 1; 1; 1; 1] i.
Definition post9 (i : nat) : R := w9 i * vec [4/5; 6/5; 8/5; 6/5; 8/5; 1/5; 1/5; 1/5; 1/5] i.
Definition model9 : old_model := old_new Stencil_D2Q9 1 1 1.

Lemma st9 i : (i < 9)%nat -> st_w (D2Q9 1) i = w9 i.
Proof. intros Hi. do 9 (destruct i as [|i]; [unfold w9; cbn [D2Q9 st_w]; nine; field|]). lia. Qed.

Lemma ghostly_mass : sumf 9 ghostly = 1.
Proof. unfold ghostly, w9, ratio9. nine. lra. Qed.
Lemma ghostly_u j : (j < 2)%nat -> sumf 9 (fun i => ghostly i * st_e (D2Q9 1) i j) / 1 = 0.
Proof. intros Hj. unfold ghostly, w9, ratio9. do 2 (destruct j as [|j]; [nine; field|]). lia. Qed.
Lemma rest_feq v i : v 0%nat = 0 -> v 1%nat = 0 -> (i < 9)%nat -> est_feq (D2Q9 1) 1 v i = w9 i.
Proof. intros A B Hi. unfold est_feq. rewrite (st9 i Hi). cbn [D2Q9 st_D st_cs2 sumf]. rewrite A, B. field. Qed.
Lemma above_all Q f : (forall i, (i < Q)%nat -> 1 / 10^11 < f i) -> above Q f = true.
Proof.
  induction Q as [|n IH]; intros G; [reflexivity|]. unfold above. fold (above n f). destruct (Rlt_dec _ _) as [_|N]; [apply IH; intros; apply G; lia|exfalso; apply N, G; lia].
Qed.
Lemma all9 (P : nat -> Prop) : P 0%nat -> P 1%nat -> P 2%nat -> P 3%nat -> P 4%nat -> P 5%nat -> P 6%nat -> P 7%nat -> P 8%nat -> forall i, (i < 9)%nat -> P i.
Proof. intros. do 9 (destruct i as [|i]; [assumption|]). lia. Qed.
Ltac each9 i Hi := revert i Hi; apply all9; unfold vec; cbn [nth].

Lemma post_ok feq i : (forall i, (i < 9)%nat -> feq i = w9 i) -> (i < 9)%nat -> ghostly i - 1 / (1/2) * (ghostly i - feq i) = post9 i.
Proof. intros F Hi. rewrite (F i Hi). unfold ghostly, post9, ratio9. each9 i Hi; field. Qed.
Lemma reg_ok post i : (forall i, (i < 9)%nat -> post i = post9 i) -> (i < 9)%nat -> stabilize Stab_D2Q9 post i = reg9 i.
Proof.
  intros P Hi. unfold stabilize. change (stab_size Stab_D2Q9) with 9%nat.
  rewrite (sumf_ext 9 _ (fun j => w3 Stab_D2Q9 i * (kernel Stab_D2Q9 i j * post9 j))) by (intros j Hj; rewrite (entry_kernel Stab_D2Q9 i j Hi Hj), (P j Hj); ring).
  unfold kernel, dot3, c3, w3, dirQ, wtQ, post9, reg9, w9. do 9 (destruct i as [|i]; [nine; field|]). lia.
Qed.

Lemma ln_div a b : 0 < a -> 0 < b -> ln (a / b) = ln a - ln b.
Proof. intros A B. unfold Rdiv. rewrite ln_mult, ln_Rinv; [reflexivity|exact B|exact A|apply Rinv_0_lt_compat; exact B]. Qed.
Lemma l4 : ln 4 = 2 * ln 2. Proof. replace 4 with (2 * 2) by ring. rewrite ln_mult by lra. ring. Qed.
Lemma l8 : ln 8 = 3 * ln 2. Proof. replace 8 with (2 * 4) by ring. rewrite ln_mult, l4 by lra. ring. Qed.
Lemma l6 : ln 6 = ln 2 + ln 3. Proof. replace 6 with (2 * 3) by ring. rewrite ln_mult by lra. ring. Qed.
Lemma l9 : ln 9 = 2 * ln 3. Proof. replace 9 with (3 * 3) by ring. rewrite ln_mult by lra. ring. Qed.
Lemma l53 : 3 * ln 5 < 7 * ln 2.
Proof.
  assert (A : ln 125 = 3 * ln 5) by (replace 125 with (5 * (5 * 5)) by ring; rewrite !ln_mult by lra; ring).
  assert (B : ln 128 = 7 * ln 2) by (replace 128 with (2 * (8 * 8)) by ring; rewrite !ln_mult, l8 by lra; ring).
  rewrite <- A, <- B. apply ln_increasing; lra.
Qed.
Lemma l32 : 3 * ln 2 < 2 * ln 3.
Proof. rewrite <- l8, <- l9. apply ln_increasing; lra. Qed.

Lemma H_w Q w f r : (forall i, (i < Q)%nat -> 0 < w i) -> (forall i, (i < Q)%nat -> f i = w i * r i) -> (forall i, (i < Q)%nat -> 0 < r i) ->
  entropy Q w f = Ok (- sumf Q (fun i => w i * r i * ln (r i))).
Proof.
  intros Hw Hf Hr. unfold entropy. rewrite (proj2 (positive_spec Q f)) by (intros i Hi; rewrite (Hf i Hi); apply Rmult_lt_0_compat; auto).
  do 2 f_equal. apply sumf_ext. intros i Hi. rewrite (Hf i Hi). do 2 f_equal. field. apply Rgt_not_eq, Hw, Hi.
Qed.
Lemma w9_pos i : (i < 9)%nat -> 0 < w9 i.
Proof. intros Hi. unfold w9. each9 i Hi; lra. Qed.

Section Logs.
  Let p := ln 2. Let q := ln 3. Let r := ln 5.
  Ltac logs := rewrite ?ln_div by lra; rewrite ?l9, ?l8, ?l6, ?l4, ?ln_1.
  Lemma H_ghostly : entropy 9 w9 ghostly = Ok (- (44 * p + 42 * q - 45 * r) / 45).
  Proof.
    rewrite (H_w 9 w9 ghostly ratio9 w9_pos (fun i _ => eq_refl)) by (intros i Hi; unfold ratio9; each9 i Hi; lra).
    f_equal. unfold w9, ratio9. nine. logs. unfold p, q, r. field.
  Qed.
  Lemma H_reg f : (forall i, (i < 9)%nat -> f i = reg9 i) -> entropy 9 w9 f = Ok (- (28 * p + 12 * q - 20 * r) / 45).
  Proof.
    intros F. rewrite (H_w 9 w9 f (vec [1; 4/5; 6/5; 4/5; 6/5; 1; 1; 1; 1]) w9_pos F) by (intros i Hi; each9 i Hi; lra).
    f_equal. unfold w9. nine. logs. unfold p, q, r. field.
  Qed.
  Lemma H_post f : (forall i, (i < 9)%nat -> f i = post9 i) -> entropy 9 w9 f = Ok (- (92 * p + 12 * q - 45 * r) / 45).
  Proof.
    intros F. rewrite (H_w 9 w9 f (vec [4/5; 6/5; 8/5; 6/5; 8/5; 1/5; 1/5; 1/5; 1/5]) w9_pos F) by (intros i Hi; each9 i Hi; lra).
    f_equal. unfold w9. nine. logs. unfold p, q, r. field.
  Qed.
  Lemma D_reg f d : (forall i, (i < 9)%nat -> f i = reg9 i) -> (forall i, (i < 9)%nat -> d i = reg9 i - w9 i) -> entropyDerivative 9 w9 f d = Ok (- (2/45) * (q - p)).
  Proof.
    intros F G. unfold entropyDerivative. rewrite (proj2 (positive_spec 9 f)) by (intros i Hi; rewrite (F i Hi); unfold reg9, w9; each9 i Hi; lra).
    f_equal. rewrite (sumf_ext 9 _ (fun i => w9 i * (vec [1; 4/5; 6/5; 4/5; 6/5; 1; 1; 1; 1] i - 1) * (ln (vec [1; 4/5; 6/5; 4/5; 6/5; 1; 1; 1; 1] i) + w9 i))).
    2:{ intros i Hi. rewrite (F i Hi), (G i Hi). unfold reg9. assert (W := w9_pos i Hi).
        replace (w9 i * vec [1; 4/5; 6/5; 4/5; 6/5; 1; 1; 1; 1] i / w9 i) with (vec [1; 4/5; 6/5; 4/5; 6/5; 1; 1; 1; 1] i) by (field; lra). ring. }
    unfold w9. nine. logs. unfold p, q. field.
  Qed.
  Lemma omega_value f reg post d : f = ghostly -> (forall i, (i < 9)%nat -> reg i = reg9 i) -> (forall i, (i < 9)%nat -> post i = post9 i) ->
    (forall i, (i < 9)%nat -> d i = reg9 i - w9 i) -> exists w2, est_omega2 9 w9 f reg post d = Ok w2 /\ 2 < w2.
  Proof.
    intros -> Hr Hp Hd. unfold est_omega2. rewrite H_ghostly, (H_reg reg Hr), (H_post post Hp), (D_reg reg d Hr Hd). cbn [obind].
    assert (A := l53). assert (B := l32). assert (C := ln_lt_2). fold p q r in A, B, C.
    destruct (Rlt_dec _ _) as [_|N]; [|exfalso; apply N; rewrite Rabs_left by lra; lra].
    destruct (Rlt_dec _ _) as [_|N]; [|exfalso; apply N; rewrite Rabs_right by lra; lra].
    destruct (Req_EM_T _ _) as [E|_]; [exfalso; lra|]. eexists. split; [reflexivity|].
    replace ((_ - _) / _) with ((16 * p + 30 * q - 25 * r) / (2 * (q - p))) by (field; lra).
    apply (Rmult_lt_reg_r (2 * (q - p))); [lra|]. unfold Rdiv. rewrite Rmult_assoc, Rinv_l by lra. lra.
  Qed.
End Logs.

Lemma est_omega2_w Q w w' f reg post d : (forall i, (i < Q)%nat -> w i = w' i) -> est_omega2 Q w f reg post d = est_omega2 Q w' f reg post d.
Proof.
  intros E. assert (A : forall g, entropy Q w g = entropy Q w' g).
  { intros g. unfold entropy. destruct (positive Q g); [|reflexivity]. do 2 f_equal. apply sumf_ext. intros i Hi. rewrite (E i Hi). reflexivity. }
  unfold est_omega2. rewrite !A. unfold entropyDerivative. destruct (positive Q reg); [|reflexivity].
  rewrite (sumf_ext Q (fun i => d i * (ln (reg i / w i) + w i)) (fun i => d i * (ln (reg i / w' i) + w' i))) by (intros i Hi; rewrite (E i Hi); reflexivity). reflexivity.
Qed.

Lemma growth : make_entropic Stencil_D2Q9 1 (1/3) 1 = Ok model9 /\
  exists o, entropic_node EntropicStabilized model9 false ghostly (fun _ => 0) = Ok o /\ stress (D2Q9 1) ghostly 0 0 = 2/45 /\ 2/45 < stress (D2Q9 1) (no_f o) 0 0.
Proof.
  split; [apply make_entropic_ok; try lra; cbn; field|].
  unfold entropic_node. cbn [model9 old_new om_t]. unfold node_est. cbn [model9 old_new om_t om_s om_tau est_kind stencil_of]. cbv zeta. change (st_Q (D2Q9 1)) with 9%nat.
  rewrite ghostly_mass. destruct (Rlt_dec 1 (1 / 10^12)) as [N|_]; [exfalso; lra|].
  set (v := fun j => _ / 1). unfold collideOne. cbv zeta. change (st_Q (D2Q9 1)) with 9%nat.
  assert (F : forall i, (i < 9)%nat -> est_feq (D2Q9 1) 1 v i = w9 i) by (intros i Hi; apply rest_feq; [apply ghostly_u; lia|apply ghostly_u; lia|exact Hi]).
  set (feq := est_feq (D2Q9 1) 1 v) in *. set (post := fun i => ghostly i - 1 / (1/2) * (ghostly i - feq i)).
  assert (P : forall i, (i < 9)%nat -> post i = post9 i) by (intros i Hi; exact (post_ok feq i F Hi)).
  assert (G : forall i, (i < 9)%nat -> stabilize Stab_D2Q9 post i = reg9 i) by (intros i Hi; exact (reg_ok post i P Hi)).
  set (reg := stabilize Stab_D2Q9 post) in *.
  rewrite (above_all 9 reg) by (intros i Hi; rewrite (G i Hi); unfold reg9, w9; each9 i Hi; lra).
  rewrite (above_all 9 post) by (intros i Hi; rewrite (P i Hi); unfold post9, w9; each9 i Hi; lra).
  rewrite (above_all 9 feq) by (intros i Hi; rewrite (F i Hi); unfold w9; each9 i Hi; lra).
  rewrite (above_all 9 ghostly) by (intros i Hi; unfold ghostly, w9, ratio9; each9 i Hi; lra).
  cbn [andb]. rewrite (est_omega2_w 9 (st_w (D2Q9 1)) w9 _ _ _ _ st9).
  destruct (omega_value ghostly reg post (fun i => reg i - feq i) eq_refl G P) as (w2 & E & L); [intros i Hi; rewrite (G i Hi), (F i Hi); reflexivity|].
  rewrite E. cbn [obind]. eexists. split; [reflexivity|]. cbn [no_f]. split.
  - unfold stress, moment2, momentum, mass, delta, ghostly, w9, ratio9. cbn [Nat.eqb]. nine. cbn [D2Q9 st_cs2]. field.
  - match goal with |- _ < stress _ ?h 0 0 => set (g := h) end.
    assert (R : forall i, (i < 9)%nat -> g i = w9 i - 1/3 * (1 + w2) * (reg9 i - w9 i)).
    { intros i Hi. unfold g. rewrite (G i Hi), (F i Hi). field. }
    assert (A : moment2 (D2Q9 1) g 0 0 = 1/3 + 2/135 * (1 + w2)).
    { rewrite (moment2_ext (D2Q9 1) g _ 0 0 R). unfold moment2, reg9, w9. nine. field. }
    assert (B : momentum (D2Q9 1) g 0 = 0).
    { rewrite (momentum_ext (D2Q9 1) g _ 0 R). unfold momentum, reg9, w9. nine. field. }
    assert (C : mass (D2Q9 1) g = 1).
    { rewrite (mass_ext (D2Q9 1) g _ R). unfold mass, reg9, w9. nine. field. }
    unfold stress. rewrite A, B, C. unfold delta. cbn [Nat.eqb D2Q9 st_cs2]. lra.
Qed.
