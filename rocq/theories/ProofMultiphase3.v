(** The pseudo-potential collision: formulas of the force, refutations. *)
From Coq Require Import QArith Qreals.
From Verif Require Import Prelude StencilData MRTEntropicData ModelStencils SpecStencils SpecCollision BigSum ProofStencils
  ProofWick ModelConfigNames ModelEquilibria ModelCollision SpecSetup ProofEquilibria ProofEqMoments ProofRelax ProofCollideNode ProofCollideAll
  ModelOldCollision SpecOldCollision ProofOldCollision ProofOldNode ProofOldNode2 ProofOldForce ProofOldMore ProofOldState
  ProofOldRefuted ProofOldRefuted2 ProofDeriv ModelMultiphase SpecMultiphase ProofMultiphase ProofMultiphase2.
Local Open Scope R_scope.

(** ** Formulas *)
Definition psi_of (k : PseudopotentialType) : R -> R := match k with SUKOP => psi_sukop | _ => psi_shan_chen end.

Lemma force_formula P cs2 rho x g grad F a : pp_type P <> CARNAHAN_STARLING -> derivable_pt_lim rho x g -> grad a = g ->
  pp_force P cs2 (rho x) grad (fun _ => 0) = Some F -> interaction (pp_G P) (psi_of (pp_type P)) rho x (F a).
Proof.
  intros HP Hg Ha H. unfold pp_force in H. destruct (pp_type P); [| |congruence]; injection H as <-; cbn [psi_of].
  - exists (exp (- rho x) * g). split.
    + unfold psi_shan_chen. eapply dl_eq.
      * apply (dl_minus (fun _ => 1) (fun y => exp (- rho y)) x); [apply dl_const|]. apply (dl_exp (fun y => - rho y) x). apply (dl_opp rho x). exact Hg.
      * cbv beta. ring.
    + unfold psi_shan_chen. rewrite Ha. ring.
  - exists (- 4 / 200 * exp (- rho x / 200) * g). split.
    + unfold psi_sukop. eapply dl_eq.
      * apply (dl_mult (fun _ => 4) (fun y => exp (- rho y / 200)) x); [apply dl_const|]. apply (dl_exp (fun y => - rho y / 200) x).
        apply (dl_divc (fun y => - rho y) 200 x). apply (dl_opp rho x). exact Hg.
      * cbv beta. field.
    + unfold psi_sukop. rewrite Ha. field.
Qed.

Lemma dl_quot f g x f' g' : g x <> 0 -> derivable_pt_lim f x f' -> derivable_pt_lim g x g' ->
  derivable_pt_lim (fun s => f s / g s) x ((f' * g x - g' * f x) / (g x * g x)).
Proof. intros H Hf Hg. exact (derivable_pt_lim_div f g x f' g' Hf Hg H). Qed.

Lemma pressure_derivative T rho : rho <> 1 -> derivable_pt_lim (pressure_CS T) rho (dp_CS T rho).
Proof.
  intros H. assert (H1 : 1 - rho <> 0) by lra.
  eapply dl_ext with (f := fun r => r * T * (1 + r + r * r - r * r * r) / ((1 - r) * (1 - r) * (1 - r)) - r * r).
  { intros r. unfold pressure_CS. replace (r ^ 2) with (r * r) by ring. replace (r ^ 3) with (r * r * r) by ring.
    replace ((1 - r) ^ 3) with ((1 - r) * (1 - r) * (1 - r)) by ring. reflexivity. }
  eapply dl_eq.
  - apply (dl_minus (fun r => r * T * (1 + r + r * r - r * r * r) / ((1 - r) * (1 - r) * (1 - r))) (fun r => r * r) rho); [|dl].
    apply (dl_quot (fun r => r * T * (1 + r + r * r - r * r * r)) (fun r => (1 - r) * (1 - r) * (1 - r)) rho); [|dl|dl].
    repeat apply Rmult_integral_contrapositive_currified; assumption.
  - cbv beta. unfold dp_CS. field. assumption.
Qed.

(** psi of Carnahan and Starling at density 1/2, temperature 3/26, speed of sound square 1/3, G = -1/3: psi = 1. *)
Definition cs_par : pp_parameters := {| pp_type := CARNAHAN_STARLING; pp_G := -1/3; pp_T := 3/26 |}.

Lemma cs_force : exists F, pp_force cs_par (1/3) (1/2) (fun _ => 1) (fun _ => 0) = Some F /\ F 0%nat = -47/78.
Proof.
  unfold pp_force, cs_par. cbn [pp_type pp_G pp_T]. cbv zeta.
  destruct (Req_EM_T (1/2) 1) as [E|_]; [lra|].
  assert (Ep : p_CS (3/26 * (1/3)) (1/2) = 0) by (unfold p_CS; field). rewrite Ep.
  destruct (Req_EM_T (0 - 1/3 * (1/2)) 0) as [E|_]; [lra|].
  assert (Er : 2 * (0 - 1/3 * (1/2)) / (-1/3) = 1) by field. rewrite Er.
  destruct (Rlt_dec 1 0) as [E|_]; [lra|]. eexists. split; [reflexivity|]. cbv beta. rewrite sqrt_1. unfold dp_CS. field.
Qed.

Lemma cs_derivative : derivable_pt_lim (fun y => psi_CS (-1/3) (3/26 * (1/3)) (1/3) (1/2 + y)) 0 (-67/26) /\ psi_CS (-1/3) (3/26 * (1/3)) (1/3) (1/2 + 0) = 1.
Proof.
  split.
  2:{ unfold psi_CS, pressure_CS. match goal with |- sqrt ?z = _ => replace z with 1 by field end. apply sqrt_1. }
  assert (Hg : derivable_pt_lim (fun y => 2 * (pressure_CS (3/26 * (1/3)) (1/2 + y) - 1/3 * (1/2 + y)) / (-1/3)) 0 (-67/13)).
  { eapply dl_eq.
    - apply (dl_divc (fun y => 2 * (pressure_CS (3/26 * (1/3)) (1/2 + y) - 1/3 * (1/2 + y))) (-1/3) 0).
      apply (dl_mult (fun _ => 2) (fun y => pressure_CS (3/26 * (1/3)) (1/2 + y) - 1/3 * (1/2 + y)) 0); [apply dl_const|].
      apply (dl_minus (fun y => pressure_CS (3/26 * (1/3)) (1/2 + y)) (fun y => 1/3 * (1/2 + y)) 0); [|dl].
      apply (dl_comp (pressure_CS (3/26 * (1/3))) (fun y => 1/2 + y) 0); [dl|]. apply pressure_derivative. lra.
    - cbv beta. unfold dp_CS. field. }
  unfold psi_CS.
  eapply dl_eq; [apply (dl_comp sqrt (fun y => 2 * (pressure_CS (3/26 * (1/3)) (1/2 + y) - 1/3 * (1/2 + y)) / (-1/3)) 0) with (g' := / (2 * sqrt 1)); [exact Hg|]|].
  - cbv beta. match goal with |- derivable_pt_lim _ ?z _ => replace z with 1 by (unfold pressure_CS; field) end. apply derivable_pt_lim_sqrt. lra.
  - rewrite sqrt_1. field.
Qed.

Lemma cs_interaction F : interaction (-1/3) (psi_CS (-1/3) (3/26 * (1/3)) (1/3)) (fun y => 1/2 + y) 0 F <-> F = -67/78.
Proof.
  destruct cs_derivative as [Hs E0]. split.
  - intros (d & Hd & ->). rewrite E0, (dl_unique _ _ _ _ Hd Hs). field.
  - intros ->. exists (-67/26). split; [exact Hs|]. rewrite E0. field.
Qed.

(** ** No interaction *)
Definition sc_par : pp_parameters := {| pp_type := SHAN_CHEN; pp_G := -5; pp_T := 1 |}.
Definition pp_model (ft : ForceType) (F : nat -> R) : old_model := with_force (old_new Stencil_D2Q9 1 (1/2) 1) ft F.
Lemma make_pp ft F : make_multiphase sc_par Stencil_D2Q9 1 (1/6) 1 ft F = Ok (pp_model ft F).
Proof.
  unfold make_multiphase, calculateRelaxationParameter. destruct (Rlt_dec 0 (1/6)); [|lra]. destruct (Rlt_dec 0 1); [|lra]. cbn [obind].
  unfold pp_asserts. cbn [sc_par pp_G pp_type]. destruct (Req_EM_T (-5) 0); [lra|]. unfold pp_model.
  replace (1 / 6 / (1 * st_cs2 (stencil_of Stencil_D2Q9 1))) with (1/2); [reflexivity|]. cbn [stencil_of D2Q9 st_cs2]. field.
Qed.

(** Fluid at rest with density 1 at node 0 and density 2 at node 1. *)
Definition ramp : fields := {| fl_f := fun n i => (1 + INR n) * st_w (D2Q9 1) i; fl_rho := fun _ => 1; fl_u := fun _ _ => 0 |}.

Lemma ramp_mass n : mass (D2Q9 1) (fl_f ramp n) = 1 + INR n.
Proof. unfold mass, ramp. cbn [fl_f D2Q9 st_Q st_w sumf]. lit15. field. Qed.
Lemma ramp_momentum n a : (a < 2)%nat -> momentum (D2Q9 1) (fl_f ramp n) a = 0.
Proof. intros Ha. unfold momentum, ramp. cbn [fl_f D2Q9 st_Q st_w st_e sumf]. do 2 (destruct a as [|a]; [lit15; field|]). lia. Qed.

Lemma ramp_interaction y F : 0 <= y <= 1 -> interaction (-5) psi_shan_chen (fun z => 1 + z) y F -> 0 < F.
Proof.
  intros Hy (d & Hd & ->).
  assert (H : derivable_pt_lim (fun z => psi_shan_chen (1 + z)) y (exp (- (1 + y)))).
  { unfold psi_shan_chen. deriv. ring. }
  rewrite (dl_unique _ _ _ _ Hd H). unfold psi_shan_chen.
  assert (0 < exp (- (1 + y))) by apply exp_pos.
  assert (exp (- (1 + y)) < exp 0) by (apply exp_increasing; lra). rewrite exp_0 in *.
  replace (- -5 * (1 - exp (- (1 + y))) * exp (- (1 + y))) with (5 * ((1 - exp (- (1 + y))) * exp (- (1 + y)))) by ring.
  apply Rmult_lt_0_compat; [lra|]. apply Rmult_lt_0_compat; lra.
Qed.

Lemma tiny_le : 1 / 10 ^ 10 <= 1.
Proof. replace (1 / 10 ^ 10) with (1 / 10000000000) by field. lra. Qed.

Lemma ramp_run ft F : ft <> NO_FORCING -> forall cells nodes, exists x', pp_collideAll sc_par (pp_model ft F) false cells nodes ramp = Ok x'.
Proof.
  intros Hft cells nodes. apply (multi_succeeds sc_par Stencil_D2Q9 1 (1/6) 1 ft F); try assumption; try reflexivity; try lra; [apply make_pp|discriminate|].
  intros n _. change (stencil_of Stencil_D2Q9 1) with (D2Q9 1). rewrite ramp_mass. pose proof (pos_INR n). pose proof tiny_le. lra.
Qed.

Lemma no_interaction : exists x', pp_collideAll sc_par (pp_model SHIFTING_VELOCITY zero) false [[0%nat; 1%nat]] [0%nat; 1%nat] ramp = Ok x' /\
  forall n a, (n < 2)%nat -> (a < 2)%nat -> momentum (D2Q9 1) (fl_f x' n) a = 0.
Proof.
  destruct (ramp_run SHIFTING_VELOCITY zero ltac:(discriminate) [[0%nat; 1%nat]] [0%nat; 1%nat]) as [x' H]. exists x'. split; [exact H|].
  intros n a Hn Ha. destruct (run_visits _ _ _ _ _ _ _ (make_pp SHIFTING_VELOCITY zero) R1_neq_R0 _ _ _ _ H n) as (_ & _ & H2 & _).
  change (stencil_of Stencil_D2Q9 1) with (D2Q9 1) in H2. rewrite (H2 a Ha), (ramp_momentum n a Ha). unfold zero. ring.
Qed.

(** ** Momentum *)
Lemma gain_guo : pp_gain (pp_model GUO push) = 1/2.
Proof. unfold pp_gain, pp_model. cbn [with_force old_new om_forceType om_prefactor]. field. Qed.

Lemma guo_half : exists x', pp_collideAll sc_par (pp_model GUO push) false [[0%nat]] [0%nat] ramp = Ok x' /\
  momentum (D2Q9 1) (fl_f x' 0%nat) 0 = 1/2.
Proof.
  destruct (ramp_run GUO push ltac:(discriminate) [[0%nat]] [0%nat]) as [x' H]. exists x'. split; [exact H|].
  destruct (run_visits _ _ _ _ _ _ _ (make_pp GUO push) R1_neq_R0 _ _ _ _ H 0%nat) as (_ & _ & H2 & _).
  change (stencil_of Stencil_D2Q9 1) with (D2Q9 1) in H2. assert (Ha : (0 < st_D (D2Q9 1))%nat) by (cbn; lia).
  rewrite (H2 0%nat Ha), (ramp_momentum 0 0 Ha), gain_guo. cbn [concat app visits count_occ]. unfold visits. cbn. unfold push, vec. cbn. lra.
Qed.

Lemma shared_twice ft : ft = SHIFTING_VELOCITY \/ ft = EXACT_DIFFERENCE ->
  exists x', pp_collideAll sc_par (pp_model ft push) false [[0%nat; 1%nat]; [1%nat; 2%nat]] [0%nat; 1%nat; 2%nat] ramp = Ok x' /\
  momentum (D2Q9 1) (fl_f x' 0%nat) 0 = 1 /\ momentum (D2Q9 1) (fl_f x' 1%nat) 0 = 2.
Proof.
  intros Hft. assert (Hn : ft <> NO_FORCING) by (destruct Hft as [->| ->]; discriminate).
  destruct (ramp_run ft push Hn [[0%nat; 1%nat]; [1%nat; 2%nat]] [0%nat; 1%nat; 2%nat]) as [x' H]. exists x'. split; [exact H|].
  assert (Ha : (0 < st_D (D2Q9 1))%nat) by (cbn; lia).
  assert (Eg : pp_gain (pp_model ft push) = 1) by (destruct Hft as [->| ->]; reflexivity).
  split; [destruct (run_visits _ _ _ _ _ _ _ (make_pp ft push) R1_neq_R0 _ _ _ _ H 0%nat) as (_ & _ & H2 & _)|
          destruct (run_visits _ _ _ _ _ _ _ (make_pp ft push) R1_neq_R0 _ _ _ _ H 1%nat) as (_ & _ & H2 & _)];
  change (stencil_of Stencil_D2Q9 1) with (D2Q9 1) in H2; rewrite (H2 0%nat Ha), ramp_momentum, Eg by exact Ha;
  unfold visits; cbn; unfold push, vec; cbn; lra.
Qed.

(** Exact difference on a scaled stencil. *)
Lemma make_pp2 : make_multiphase sc_par Stencil_D2Q9 2 (2/3) 1 EXACT_DIFFERENCE push = Ok (with_force (old_new Stencil_D2Q9 2 (1/2) 1) EXACT_DIFFERENCE push).
Proof.
  unfold make_multiphase, calculateRelaxationParameter. destruct (Rlt_dec 0 (2/3)); [|lra]. destruct (Rlt_dec 0 1); [|lra]. cbn [obind].
  unfold pp_asserts. cbn [sc_par pp_G pp_type]. destruct (Req_EM_T (-5) 0); [lra|].
  replace (2 / 3 / (1 * st_cs2 (stencil_of Stencil_D2Q9 2))) with (1/2); [reflexivity|]. cbn [stencil_of D2Q9 st_cs2]. field.
Qed.

Definition lump_fields : fields := {| fl_f := fun _ => lump; fl_rho := fun _ => 1; fl_u := fun _ _ => 0 |}.

Lemma scaled_mass : exists x', pp_collideAll sc_par (with_force (old_new Stencil_D2Q9 2 (1/2) 1) EXACT_DIFFERENCE push) false [[0%nat]] [0%nat] lump_fields = Ok x' /\
  mass (D2Q9 2) (fl_f lump_fields 0%nat) = 2 /\ mass (D2Q9 2) (fl_f x' 0%nat) <> 2.
Proof.
  assert (Em : mass (D2Q9 2) lump = 2) by (unfold mass, lump; cbn [D2Q9 st_Q sumf]; unfold vec; cbn [nth]; ring).
  destruct (multi_succeeds sc_par Stencil_D2Q9 2 (2/3) 1 EXACT_DIFFERENCE push _ [[0%nat]] [0%nat] lump_fields make_pp2) as [x' H]; try reflexivity; try discriminate; try lra.
  { intros n _. cbn [lump_fields fl_f stencil_of]. rewrite Em. pose proof tiny_le. lra. }
  exists x'. split; [exact H|]. split; [exact Em|].
  unfold pp_collideAll, pp_collideAllD2Q9 in H. cbn [with_force old_new om_forceType om_t concat app pp_loop fl_f fl_rho fl_u lump_fields] in H.
  destruct (pp_node sc_par _ false _ lump _) as [o| |] eqn:En; try discriminate. cbn [obind] in H. injection H as <-. cbn [fl_f]. rewrite upd_same.
  assert (Hs2 : om_s (with_force (old_new Stencil_D2Q9 2 (1/2) 1) EXACT_DIFFERENCE push) <> 0) by (cbn; lra).
  assert (Ht2 : om_t (with_force (old_new Stencil_D2Q9 2 (1/2) 1) EXACT_DIFFERENCE push) = Stencil_D2Q9) by reflexivity.
  destruct (pp_node_inv sc_par _ _ _ _ _ Ht2 Hs2 En) as (_ & _ & F & HF & _ & Hf).
  cbn [with_force old_new om_t om_s om_prefactor stencil_of om_F] in Hf, HF.
  change (sumf 9 lump) with (mass (D2Q9 2) lump) in *. rewrite Em in *.
  rewrite (mass_ext _ _ _ Hf). unfold mass. cbn [D2Q9 st_Q sumf].
  unfold pp_source, add_relaxed, edm_D2Q9, edm, plus, minus, old_eq, sp, force_velocities, raw_D2Q9.
  cbn [set_force with_force old_new om_t om_s om_dt om_forceType om_F om_prefactor stencil_of D2Q9 st_D st_cs2 st_e st_w sumf fst snd].
  rewrite !HF. unfold push, lump, vec. cbn [nth]. lit15. 
  match goal with |- ?z <> 2 => assert (Ez : z <> 2); [field_simplify z; lra|exact Ez] end.
Qed.

(** ** Other stencils and the initialisation *)
Section Generic.
  Variables (m : old_model) (init : bool).
  Hypothesis Hc : closed_form (om_t m) = true.
  Hypothesis Hs : om_s m <> 0.
  Let st := stencil_of (om_t m) (om_s m).

  Lemma generic_loop_effect : forall nodes x x', NoDup nodes -> pp_generic_loop m init nodes x = Ok x' ->
    forall n, (~ In n nodes -> fl_f x' n = fl_f x n /\ fl_u x' n = fl_u x n /\ fl_rho x' n = fl_rho x n) /\
    (In n nodes -> exists o, relaxed_node BGKStandard m init (fl_f x n) (fl_u x n) o /\
       fl_f x' n = no_f o /\ fl_u x' n = no_u o /\ fl_rho x' n = no_rho o).
  Proof.
    induction nodes as [|k rest IH]; intros x x' Hnd H n.
    - injection H as <-. split; [intros; repeat split|intros []].
    - cbn [pp_generic_loop] in H. destruct (node_generic m init BGKStandard (fl_f x k) (fl_u x k)) as [o| |] eqn:En; try discriminate.
      cbn [obind] in H. inversion Hnd as [|? ? Hk Hrest]; subst. destruct (IH _ _ Hrest H n) as [A B]. cbn [fl_f fl_u fl_rho] in A, B.
      apply generic_node in En. destruct (Nat.eq_dec n k) as [->|Hnk].
      + rewrite !upd_same in A. split; [intros X; destruct X; left; reflexivity|]. intros _. destruct (A Hk) as (-> & -> & ->).
        exists o. repeat split; assumption || apply En || reflexivity.
      + rewrite !upd_other in A by assumption. rewrite !upd_other in B by assumption. split.
        * intros X. apply A. intros Y. apply X. right. assumption.
        * intros [X|X]; [congruence|]. apply B. assumption.
  Qed.
End Generic.

Lemma multi_other P t s nu dt ft F m cells nodes x x' : make_multiphase P t s nu dt ft F = Ok m -> s <> 0 -> closed_form t = true ->
  t <> Stencil_D2Q9 -> NoDup nodes -> pp_collideAll P m false cells nodes x = Ok x' ->
  let st := stencil_of t s in
  forall n, In n nodes -> fl_rho x' n = mass st (fl_f x n) /\ mass st (fl_f x' n) = mass st (fl_f x n) /\
    forall a, (a < st_D st)%nat -> momentum st (fl_f x' n) a = momentum st (fl_f x n) a /\
      fl_u x' n a = momentum st (fl_f x n) a / mass st (fl_f x n).
Proof.
  intros Hm Hs Hc Ht Hnd H st n Hn. destruct (make_multiphase_facts _ _ _ _ _ _ _ _ Hm Hs) as (Et & Es & _ & Ef & _).
  unfold pp_collideAll in H. rewrite Et, Ef in H.
  assert (G : pp_generic_loop m false nodes x = Ok x') by (destruct ft; [discriminate| | |]; destruct t; congruence).
  destruct (generic_loop_effect m false nodes x x' Hnd G n) as [_ B]. destruct (B Hn) as (o & Ho & Ef' & Eu & Er).
  rewrite <- Es in Hs. rewrite <- Et in Hc.
  destruct (relaxed_node_conserves BGKStandard m (fl_f x n) (fl_u x n) o Hc Hs ltac:(discriminate) Ho) as [[C1 C2] [D1 D2]].
  rewrite Et, Es in *. fold st in C1, C2, D1, D2. rewrite Ef', Eu, Er. split; [exact D1|]. split; [exact C1|].
  intros a Ha. split; [apply C2; exact Ha|]. rewrite (D2 a Ha). reflexivity.
Qed.

Lemma multi_other_init P t s nu dt ft F m cells nodes x x' : make_multiphase P t s nu dt ft F = Ok m -> s <> 0 -> closed_form t = true ->
  t <> Stencil_D2Q9 -> NoDup nodes -> pp_collideAll P m true cells nodes x = Ok x' ->
  let st := stencil_of t s in
  forall n, In n nodes -> fl_u x' n = fl_u x n /\ fl_rho x' n = mass st (fl_f x n) /\ mass st (fl_f x' n) = mass st (fl_f x n) /\
    forall a, (a < st_D st)%nat -> Rabs (momentum st (fl_f x' n) a - mass st (fl_f x' n) * fl_u x n a)
      <= Rabs (momentum st (fl_f x n) a - mass st (fl_f x n) * fl_u x n a).
Proof.
  intros Hm Hs Hc Ht Hnd H st n Hn. destruct (make_multiphase_facts _ _ _ _ _ _ _ _ Hm Hs) as (Et & Es & _ & Ef & _ & Hp & _).
  unfold pp_collideAll in H. rewrite Et, Ef in H.
  assert (G : pp_generic_loop m true nodes x = Ok x') by (destruct ft; [discriminate| | |]; destruct t; congruence).
  destruct (generic_loop_effect m true nodes x x' Hnd G n) as [_ B]. destruct (B Hn) as (o & Ho & Ef' & Eu & Er).
  rewrite <- Es in Hs. rewrite <- Et in Hc.
  pose proof (relaxed_node_mass BGKStandard m (fl_f x n) (fl_u x n) o Hc Hs ltac:(discriminate) true Ho) as C1.
  pose proof (fun a Ha => relaxed_node_init BGKStandard m (fl_f x n) (fl_u x n) o Hc Hs ltac:(discriminate) a Ha Ho) as C2.
  destruct Ho as (_ & D1 & D2 & _).
  rewrite Et, Es in *. fold st in C1, C2, D1, D2. rewrite Ef', Eu, Er. split; [exact D2|]. split; [exact D1|]. split; [exact C1|].
  intros a Ha. rewrite (C2 a Ha), Rabs_mult. rewrite <- (Rmult_1_l (Rabs (_ - _))) at 2.
  apply Rmult_le_compat_r; [apply Rabs_pos|]. apply Rabs_le. lra.
Qed.

Lemma multi_init_undefined P t s nu dt ft F m cells nodes x n rest : make_multiphase P t s nu dt ft F = Ok m -> s <> 0 -> t = Stencil_D2Q9 ->
  ft <> NO_FORCING -> concat cells = n :: rest -> 1 / 10^10 <= mass (stencil_of t s) (fl_f x n) ->
  pp_collideAll P m true cells nodes x = UB.
Proof.
  intros Hm Hs -> Hft Hc Hd. destruct (make_multiphase_facts _ _ _ _ _ _ _ _ Hm Hs) as (Et & _ & _ & Ef & _).
  unfold pp_collideAll. rewrite Et, Ef. unfold pp_collideAllD2Q9. rewrite Hc. cbn [pp_loop fl_rho fl_f fl_u].
  assert (E : pp_node P m true (sumf 9 (fl_f x n)) (fl_f x n) (fl_u x n) = UB) by (unfold pp_node; cbv zeta; rewrite checked_ok by exact Hd; reflexivity).
  rewrite E. destruct ft; [congruence|reflexivity|reflexivity|reflexivity].
Qed.

Lemma visits_gain P s nu dt ft F m cells nodes x x' : make_multiphase P Stencil_D2Q9 s nu dt ft F = Ok m -> s <> 0 ->
  ft = SHIFTING_VELOCITY \/ ft = EXACT_DIFFERENCE -> pp_collideAll P m false cells nodes x = Ok x' ->
  forall n a, (a < 2)%nat -> momentum (D2Q9 s) (fl_f x' n) a =
    momentum (D2Q9 s) (fl_f x n) a + INR (count_occ Nat.eq_dec (concat cells) n) * (dt * F a).
Proof.
  intros Hm Hs Hft H n a Ha. destruct (run_visits _ _ _ _ _ _ _ Hm Hs _ _ _ _ H n) as (_ & _ & H2 & _).
  change (stencil_of Stencil_D2Q9 s) with (D2Q9 s) in H2. rewrite (H2 a Ha). unfold visits. f_equal. f_equal.
  destruct (make_multiphase_facts _ _ _ _ _ _ _ _ Hm Hs) as (_ & _ & _ & Ef & _). unfold pp_gain. rewrite Ef. destruct Hft as [-> | ->]; ring.
Qed.

(** ** D3Q19 with a force *)
Definition other_model : old_model := with_force (old_new Stencil_D3Q19 1 (1/2) 1) SHIFTING_VELOCITY push.
Definition other_fields : fields := {| fl_f := fun n => half19; fl_rho := fun _ => 1; fl_u := fun _ _ => 0 |}.
Lemma make_other : make_multiphase sc_par Stencil_D3Q19 1 (1/6) 1 SHIFTING_VELOCITY push = Ok other_model.
Proof.
  unfold make_multiphase, calculateRelaxationParameter. destruct (Rlt_dec 0 (1/6)); [|lra]. destruct (Rlt_dec 0 1); [|lra]. cbn [obind].
  unfold pp_asserts. cbn [sc_par pp_G pp_type]. destruct (Req_EM_T (-5) 0); [lra|]. unfold other_model.
  replace (1 / 6 / (1 * st_cs2 (stencil_of Stencil_D3Q19 1))) with (1/2); [reflexivity|]. cbn [stencil_of D3Q19 st_cs2]. field.
Qed.

Lemma half_passes init : passes other_model init half19 (fun _ => 0).
Proof.
  assert (Em : mass (D3Q19 1) half19 = 1) by (unfold mass, half19; cbn [D3Q19 st_Q sumf]; unfold vec; cbn [nth]; lra).
  assert (Ej : forall a, (a < 3)%nat -> momentum (D3Q19 1) half19 a = match a with 0%nat => 1/2 | _ => 0 end).
  { intros a Ha. unfold momentum, half19. cbn [D3Q19 st_Q st_e sumf]. unfold vec. cbn [nth]. do 3 (destruct a as [|a]; [lit15; lra|]). lia. }
  split.
  - change (stencil_of (om_t other_model) (om_s other_model)) with (D3Q19 1). rewrite Em. exact tiny_le.
  - change (stencil_of (om_t other_model) (om_s other_model)) with (D3Q19 1). rewrite Em. unfold eq_asserts.
    repeat match goal with |- context [Rlt_dec ?a ?b] => destruct (Rlt_dec a b); try (exfalso; lra) end; try reflexivity;
    destruct init; cbn; rewrite ?Ej in * by lia; lra.
Qed.

Lemma other_runs init : exists x', pp_collideAll sc_par other_model init [] [0%nat; 1%nat] other_fields = Ok x'.
Proof.
  change (exists x', pp_generic_loop other_model init [0%nat; 1%nat] other_fields = Ok x').
  destruct (generic_runs BGKStandard other_model init half19 (fun _ => 0) (half_passes init)) as [o Ho].
  cbn [pp_generic_loop]. change (fl_f other_fields 0%nat) with half19. change (fl_u other_fields 0%nat) with (fun _ : nat => 0). rewrite Ho.
  cbn [obind fl_f fl_u]. rewrite !upd_other by discriminate.
  change (fl_f other_fields 1%nat) with half19. change (fl_u other_fields 1%nat) with (fun _ : nat => 0). rewrite Ho. cbn [obind]. eexists; reflexivity.
Qed.

Lemma other_ignores : exists x', pp_collideAll sc_par other_model false [] [0%nat; 1%nat] other_fields = Ok x' /\
  momentum (D3Q19 1) (fl_f x' 0%nat) 0 = momentum (D3Q19 1) (fl_f other_fields 0%nat) 0.
Proof.
  destruct (other_runs false) as [x' H]. exists x'. split; [exact H|].
  assert (Hnd : NoDup [0%nat; 1%nat]) by (repeat constructor; cbn; intuition discriminate).
  assert (Ht : Stencil_D3Q19 <> Stencil_D2Q9) by discriminate.
  pose proof (multi_other sc_par Stencil_D3Q19 1 (1/6) 1 SHIFTING_VELOCITY push other_model [] [0%nat; 1%nat] other_fields x' make_other R1_neq_R0 eq_refl Ht Hnd H) as X.
  cbv zeta in X. destruct (X 0%nat (or_introl eq_refl)) as (_ & _ & M).
  destruct (M 0%nat) as [M1 _]; [cbn; lia|]. exact M1.
Qed.

Lemma multi_refused : forall P t s nu dt ft F tau,
  calculateRelaxationParameter BGKStandardTransformed nu dt (stencil_of t s) = Ok tau ->
  (pp_G P = 0 \/ (pp_type P = CARNAHAN_STARLING /\ pp_T P = 0) -> make_multiphase P t s nu dt ft F = Throw) /\
  (pp_G P <> 0 -> (pp_type P = CARNAHAN_STARLING -> pp_T P <> 0) -> exists m, make_multiphase P t s nu dt ft F = Ok m /\
     om_t m = t /\ om_s m = s /\ om_tau m = tau /\ om_dt m = dt).
Proof.
  intros P t s nu dt ft F tau E. unfold make_multiphase. rewrite E. cbn [obind]. unfold pp_asserts. split.
  - intros [H|[H H1]]; destruct (Req_EM_T (pp_G P) 0); try reflexivity; [contradiction|].
    rewrite H. destruct (Req_EM_T (pp_T P) 0); [reflexivity|contradiction].
  - intros H H1. destruct (Req_EM_T (pp_G P) 0); [contradiction|].
    assert (A : match pp_type P with CARNAHAN_STARLING => if Req_EM_T (pp_T P) 0 then false else true | _ => true end = true).
    { destruct (pp_type P); try reflexivity. destruct (Req_EM_T (pp_T P) 0); [exfalso; apply H1; [reflexivity|assumption]|reflexivity]. }
    rewrite A. eexists. split; [reflexivity|]. split; [reflexivity|]. split; [reflexivity|]. split; reflexivity.
Qed.
Lemma multi_tau : exists tau, calculateRelaxationParameter BGKStandardTransformed (1/6) 1 (stencil_of Stencil_D2Q9 1) = Ok tau.
Proof.
  destruct (calculateRelaxationParameter BGKStandardTransformed (1/6) 1 (stencil_of Stencil_D2Q9 1)) as [tau| |] eqn:E; [eexists; reflexivity| |].
  all: pose proof (make_pp SHIFTING_VELOCITY zero) as M; unfold make_multiphase in M; rewrite E in M; discriminate M.
Qed.
