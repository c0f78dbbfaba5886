(** The pseudo-potential collision: runs, force formulas, refutations. *)
From Coq Require Import QArith Qreals.
From Verif Require Import Prelude StencilData MRTEntropicData ModelStencils SpecStencils SpecCollision BigSum ProofStencils
  ProofWick ModelConfigNames ModelEquilibria ModelCollision SpecSetup ProofEquilibria ProofEqMoments ProofRelax ProofCollideNode ProofCollideAll
  ModelOldCollision SpecOldCollision ProofOldCollision ProofOldNode ProofOldNode2 ProofOldForce ProofOldMore ProofOldState
  ProofDeriv ModelMultiphase SpecMultiphase ProofMultiphase.
Local Open Scope R_scope.

(** ** Construction *)
Lemma make_multiphase_inv P t s nu dt ft F m : make_multiphase P t s nu dt ft F = Ok m ->
  exists m0, make_old BGKStandardTransformed t s nu dt = Ok m0 /\ m = with_force m0 ft F.
Proof.
  unfold make_multiphase, make_old. destruct (calculateRelaxationParameter _ _ _ _) as [tau| |]; try discriminate. cbn [obind].
  destruct (pp_asserts P); [|discriminate]. intros H. injection H as <-. eexists; split; reflexivity.
Qed.

Lemma make_multiphase_facts P t s nu dt ft F m : make_multiphase P t s nu dt ft F = Ok m -> s <> 0 ->
  om_t m = t /\ om_s m = s /\ om_dt m = dt /\ om_forceType m = ft /\ om_F m = F /\ -2 < om_prefactor m < 0 /\
  om_prefactor m = - 1 / (nu / (dt * st_cs2 (stencil_of t s)) + 1/2).
Proof.
  intros H Hs. destruct (make_multiphase_inv _ _ _ _ _ _ _ _ H) as (m0 & H0 & ->).
  pose proof (make_prefactor _ _ _ _ _ _ H0 Hs). destruct (make_old_inv _ _ _ _ _ _ H0) as (_ & _ & Et & Es & Ed & _ & Ep & Etau).
  cbn [with_force om_t om_s om_dt om_forceType om_F om_prefactor]. repeat split; try assumption; try lra.
  rewrite Ep, Etau. reflexivity.
Qed.

(** ** Runs *)
Lemma visits_nodup n l : NoDup l -> In n l -> visits n l = 1%nat.
Proof.
  intros H Hn. unfold visits. pose proof (proj1 (NoDup_count_occ Nat.eq_dec l) H n).
  pose proof (proj1 (count_occ_In Nat.eq_dec l n) Hn). lia.
Qed.

Section Run.
  Variables (P : pp_parameters) (s nu dt : R) (ft : ForceType) (F : nat -> R) (m : old_model).
  Hypothesis Hm : make_multiphase P Stencil_D2Q9 s nu dt ft F = Ok m.
  Hypothesis Hs : s <> 0.
  Variables (cells : list (list nat)) (nodes : list nat) (x x' : fields).
  Hypothesis Hrun : pp_collideAll P m false cells nodes x = Ok x'.
  Let st := stencil_of Stencil_D2Q9 s.

  Lemma run_forced : ft <> NO_FORCING.
  Proof.
    destruct (make_multiphase_facts _ _ _ _ _ _ _ _ Hm Hs) as (_ & _ & _ & Ef & _).
    intros E. unfold pp_collideAll in Hrun. rewrite Ef, E in Hrun. discriminate.
  Qed.

  Lemma run_visits : forall n, let k := visits n (concat cells) in
    fl_rho x' n = mass st (fl_f x n) /\
    (k = 0%nat -> fl_f x' n = fl_f x n /\ fl_u x' n = fl_u x n) /\
    (forall a, (a < st_D st)%nat ->
       momentum st (fl_f x' n) a = momentum st (fl_f x n) a + INR k * (pp_gain m * (dt * F a))) /\
    (forall a, (a < st_D st)%nat -> (0 < k)%nat ->
       fl_u x' n a = (momentum st (fl_f x n) a + (INR k - 1) * (pp_gain m * (dt * F a)) + dt / 2 * F a) / mass st (fl_f x n)) /\
    (s = 1 \/ ft <> EXACT_DIFFERENCE -> mass st (fl_f x' n) = mass st (fl_f x n)) /\
    ((0 < k)%nat -> 1 / 10^10 <= mass st (fl_f x n)).
  Proof.
    intros n k. pose proof run_forced as Hft. destruct (make_multiphase_facts _ _ _ _ _ _ _ _ Hm Hs) as (Et & Es & Ed & Ef & EF & Ep & _).
    unfold pp_collideAll in Hrun. rewrite Et, Ef in Hrun.
    assert (H : pp_collideAllD2Q9 P m false cells x = Ok x') by (destruct ft; congruence). clear Hrun.
    unfold pp_collideAllD2Q9 in H.
    assert (A : om_s m <> 0) by (rewrite Es; assumption). assert (B : om_prefactor m <> 0) by lra.
    assert (C : om_forceType m <> NO_FORCING) by (rewrite Ef; assumption).
    destruct (pp_loop_effect P m Et A B C _ _ _ H) as [Hr Hn]. cbn [fl_rho fl_f fl_u] in Hr, Hn.
    destruct (Hn n) as (H0 & H1 & H2 & H3 & H4). rewrite Et, Es in *. fold st in H1, H2, H3, H4. fold k in H0, H1, H2, H3, H4.
    rewrite Ed, EF, Ef in *.
    change (sumf 9 (fl_f x n)) with (mass st (fl_f x n)) in *.
    split; [rewrite Hr; reflexivity|]. split; [assumption|]. split; [assumption|]. split; [assumption|]. split; [|assumption].
    intros Hc. apply H3; [assumption|reflexivity].
  Qed.
End Run.

Lemma multi_acts P t s nu dt ft F m cells nodes x x' : make_multiphase P t s nu dt ft F = Ok m -> s <> 0 ->
  t = Stencil_D2Q9 -> ft = SHIFTING_VELOCITY \/ (ft = EXACT_DIFFERENCE /\ s = 1) -> NoDup (concat cells) ->
  pp_collideAll P m false cells nodes x = Ok x' ->
  let st := stencil_of t s in
  (forall n, In n (concat cells) -> fl_rho x' n = mass st (fl_f x n) /\ acts st dt F (fl_f x n) (fl_f x' n) (fl_u x' n)) /\
  (forall n, ~ In n (concat cells) -> fl_f x' n = fl_f x n /\ fl_u x' n = fl_u x n).
Proof.
  intros Hm Hs -> Hft Hnd H st. destruct (make_multiphase_facts _ _ _ _ _ _ _ _ Hm Hs) as (_ & _ & _ & Ef & _).
  assert (Eg : pp_gain m = 1) by (unfold pp_gain; rewrite Ef; destruct Hft as [->|[-> _]]; reflexivity).
  split; intros n Hn; destruct (run_visits _ _ _ _ _ _ _ Hm Hs _ _ _ _ H n) as (H0 & H1 & H2 & H3 & H4 & H5); fold st in H0, H2, H3, H4, H5.
  - rewrite (visits_nodup n _ Hnd Hn) in *. rewrite Eg in *. cbn [INR] in *. split; [exact H0|]. split; [|split].
    + apply H4. destruct Hft as [->|[_ ->]]; [right; congruence|left; reflexivity].
    + intros a Ha. rewrite (H2 a Ha). ring.
    + intros a Ha. rewrite (H3 a Ha) by lia. f_equal. ring.
  - apply H1. unfold visits. destruct (count_occ_not_In Nat.eq_dec (concat cells) n) as [A _]. apply A. assumption.
Qed.

(** It succeeds on dense nodes. *)
Lemma pp_loop_runs P m : pp_type P <> CARNAHAN_STARLING -> forall dofs x, (forall n, In n dofs -> 1 / 10^10 <= fl_rho x n) ->
  exists x', pp_loop P m false dofs x = Ok x'.
Proof.
  intros HP. induction dofs as [|k rest IH]; intros x Hd; [eexists; reflexivity|]. cbn [pp_loop].
  assert (E : exists o, pp_node P m false (fl_rho x k) (fl_f x k) (fl_u x k) = Ok o).
  { unfold pp_node. cbv zeta. rewrite checked_ok by (apply Hd; left; reflexivity).
    unfold pp_force. destruct (pp_type P); [| |congruence];
    destruct (force_velocities _ _ _); eexists; reflexivity. }
  destruct E as [o ->]. cbn [obind]. apply IH. cbn [fl_rho]. intros n Hn. apply Hd. right. assumption.
Qed.

Lemma multi_succeeds P t s nu dt ft F m cells nodes x : make_multiphase P t s nu dt ft F = Ok m -> s <> 0 -> t = Stencil_D2Q9 ->
  ft <> NO_FORCING -> pp_type P <> CARNAHAN_STARLING ->
  (forall n, In n (concat cells) -> 1 / 10^10 <= mass (stencil_of t s) (fl_f x n)) ->
  exists x', pp_collideAll P m false cells nodes x = Ok x'.
Proof.
  intros Hm Hs -> Hft HP Hd. destruct (make_multiphase_facts _ _ _ _ _ _ _ _ Hm Hs) as (Et & _ & _ & Ef & _).
  unfold pp_collideAll. rewrite Et, Ef. unfold pp_collideAllD2Q9.
  destruct (pp_loop_runs P m HP (concat cells) {| fl_f := fl_f x; fl_rho := fun n => sumf 9 (fl_f x n); fl_u := fl_u x |}) as [x' Hx'].
  { intros n Hn. apply Hd. assumption. }
  exists x'. destruct ft; congruence.
Qed.

(** ** Independence of the parameters *)
Definition agree (x y : fields) : Prop := forall n, fl_rho x n = fl_rho y n /\
  (forall i, (i < 9)%nat -> fl_f x n i = fl_f y n i) /\ (forall a, (a < 2)%nat -> fl_u x n a = fl_u y n a).

Lemma raw9_congr s rho f g a : (forall i, (i < 9)%nat -> f i = g i) -> raw_D2Q9 s rho f a = raw_D2Q9 s rho g a.
Proof. intros H. unfold raw_D2Q9. rewrite !H by lia. reflexivity. Qed.

Lemma edm_congr F G u v rho dt p i : (forall j, (j < 2)%nat -> F j = G j) -> (forall j, (j < 2)%nat -> u j = v j) ->
  edm_D2Q9 F u rho dt p i = edm_D2Q9 G v rho dt p i.
Proof. intros H K. unfold edm_D2Q9. cbv zeta. rewrite !H, !K by lia. reflexivity. Qed.

Lemma pp_node_congr P P' m rho f f' u u' o o' : om_t m = Stencil_D2Q9 -> om_s m <> 0 -> (forall i, (i < 9)%nat -> f i = f' i) ->
  pp_node P m false rho f u = Ok o -> pp_node P' m false rho f' u' = Ok o' ->
  no_rho o = no_rho o' /\ (forall i, (i < 9)%nat -> no_f o i = no_f o' i) /\ (forall a, (a < 2)%nat -> no_u o a = no_u o' a).
Proof.
  intros Ht Hs Hf H H'. destruct (pp_node_inv _ _ _ _ _ _ Ht Hs H) as (_ & Hr & F & HF & Hu & Ho).
  destruct (pp_node_inv _ _ _ _ _ _ Ht Hs H') as (_ & Hr' & F' & HF' & Hu' & Ho').
  split; [congruence|].
  assert (E : forall a, fst (force_velocities (set_force m F) rho (raw_D2Q9 (om_s m) rho f)) a
            = fst (force_velocities (set_force m F') rho (raw_D2Q9 (om_s m) rho f')) a /\
            snd (force_velocities (set_force m F) rho (raw_D2Q9 (om_s m) rho f)) a
            = snd (force_velocities (set_force m F') rho (raw_D2Q9 (om_s m) rho f')) a).
  { intros a. unfold force_velocities. cbn [set_force om_forceType om_dt om_F om_prefactor].
    destruct (om_forceType m); cbn [fst snd]; rewrite ?HF, ?HF', (raw9_congr _ _ f f' a Hf); split; reflexivity. }
  split.
  - intros i Hi. assert (Hi' : (i < st_Q (stencil_of (om_t m) (om_s m)))%nat) by (rewrite Ht; exact Hi).
    rewrite (Ho i Hi'), (Ho' i Hi'). f_equal.
    + unfold add_relaxed. rewrite (Hf i Hi). rewrite (old_eq_ext BGKStandard _ rho _ _ i (fun a _ => proj2 (E a))). reflexivity.
    + unfold pp_source. destruct (om_forceType m); try reflexivity. apply edm_congr; intros j _; [rewrite HF, HF'; reflexivity|apply E].
  - intros a Ha. rewrite Hu, Hu'. apply E.
Qed.

Lemma pp_loop_congr P P' m : om_t m = Stencil_D2Q9 -> om_s m <> 0 -> forall dofs x y x' y', agree x y ->
  pp_loop P m false dofs x = Ok x' -> pp_loop P' m false dofs y = Ok y' -> agree x' y'.
Proof.
  intros Ht Hs. induction dofs as [|k rest IH]; intros x y x' y' Ha H H'.
  - injection H as <-. injection H' as <-. assumption.
  - cbn [pp_loop] in H, H'. destruct (pp_node P m false _ _ _) as [o| |] eqn:E; try discriminate.
    destruct (pp_node P' m false _ _ _) as [o'| |] eqn:E'; try discriminate. cbn [obind] in H, H'.
    destruct (Ha k) as (Ar & Af & Au). rewrite <- Ar in E'.
    destruct (pp_node_congr _ _ _ _ _ _ _ _ _ _ Ht Hs Af E E') as (Br & Bf & Bu).
    refine (IH _ _ _ _ _ H H'). intros n. cbn [fl_rho fl_f fl_u]. destruct (Ha n) as (Cr & Cf & Cu). split; [assumption|].
    destruct (Nat.eq_dec n k) as [->|Hn]; [rewrite !upd_same|rewrite !upd_other by assumption]; split; assumption.
Qed.

Lemma multi_independent P P' t s nu dt ft F m cells nodes x y y' : make_multiphase P t s nu dt ft F = Ok m -> s <> 0 ->
  t = Stencil_D2Q9 -> pp_collideAll P m false cells nodes x = Ok y -> pp_collideAll P' m false cells nodes x = Ok y' -> agree y y'.
Proof.
  intros Hm Hs -> H H'. destruct (make_multiphase_facts _ _ _ _ _ _ _ _ Hm Hs) as (Et & Es & _ & Ef & _).
  unfold pp_collideAll in H, H'. rewrite Et, Ef in H, H'. unfold pp_collideAllD2Q9 in H, H'.
  destruct ft; [discriminate| | |];
  (eapply pp_loop_congr; [exact Et|rewrite Es; exact Hs| |exact H|exact H']; intros n; repeat split).
Qed.
