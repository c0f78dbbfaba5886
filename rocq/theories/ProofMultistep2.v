(** Runs of the multistep object: totals, and the amplification of a deviation from equilibrium. *)
From Verif Require Import Prelude StencilData ModelStencils SpecStencils SpecCollision BigSum ProofStencils
  ModelConfigNames ModelEquilibria ModelCollision ProofEquilibria ProofEqMoments ProofCollideNode ProofCollideAll
  ModelOldCollision SpecOldCollision ProofOldCollision ProofOldNode ProofOldForce ModelMultistep SpecMultistep ProofMultistep.
Local Open Scope R_scope.

(** ** Totals *)
Lemma total_ext nodes g h : (forall n, In n nodes -> g n = h n) -> total nodes g = total nodes h.
Proof.
  induction nodes as [|n rest IH]; intros H; [reflexivity|]. unfold total in *. cbn [map fold_right].
  rewrite (H n (or_introl eq_refl)), IH; [reflexivity|]. intros k Hk. apply H. right. exact Hk.
Qed.
Lemma total_plus nodes g h : total nodes (fun n => g n + h n) = total nodes g + total nodes h.
Proof. induction nodes as [|n rest IH]; unfold total in *; cbn [map fold_right]; [ring|rewrite IH; ring]. Qed.
Lemma total_scal nodes c g : total nodes (fun n => c * g n) = c * total nodes g.
Proof. induction nodes as [|n rest IH]; unfold total in *; cbn [map fold_right]; [ring|rewrite IH; ring]. Qed.

Section Run.
  Variables (m : multi) (nodes : list nat).
  Let st := D2Q9 (om_s (mu_m m)).
  Hypothesis Ht : om_t (mu_m m) = Stencil_D2Q9.
  Hypothesis Hs : om_s (mu_m m) <> 0.
  Hypothesis HF : om_forceType (mu_m m) = NO_FORCING.
  Hypothesis Hnd : NoDup nodes.

  (** The history carries the totals of the populations. *)
  Definition carries (x : mstate) : Prop :=
    total_mass st nodes (hist_F x) = total_mass st nodes (fl_f (ms_x x)) /\
    total_mass st nodes (hist_FEq x) = total_mass st nodes (fl_f (ms_x x)) /\
    forall a, (a < 2)%nat ->
      total_momentum st nodes (hist_F x) a = total_momentum st nodes (fl_f (ms_x x)) a /\
      total_momentum st nodes (hist_FEq x) a = total_momentum st nodes (fl_f (ms_x x)) a.

  Lemma carries_first x : ms_first x = true -> carries x.
  Proof. intros H. unfold carries, hist_F, hist_FEq. rewrite H. repeat split. Qed.

  Lemma unforced_mass f F FEq r : multi_node_D2Q9 m false f F FEq = Ok r ->
    mass st (no_f (fst r)) = adv_f m * mass st f + adv_F m * mass st F + factor1 m * (mass st F - mass st FEq).
  Proof.
    intros H. pose proof (node_mass m Ht Hs f F FEq r H) as E. fold st in E. rewrite E.
    assert (Ez : mass st (multi_source m (mass st f) (multi_v m f)) = 0) by (apply sumf_zero; intros; apply source_unforced; exact HF).
    rewrite Ez. ring.
  Qed.
  Lemma unforced_momentum f F FEq r a : (a < 2)%nat -> multi_node_D2Q9 m false f F FEq = Ok r ->
    momentum st (no_f (fst r)) a = adv_f m * momentum st f a + adv_F m * momentum st F a + factor1 m * (momentum st F a - momentum st FEq a).
  Proof.
    intros Ha H. pose proof (node_momentum m Ht Hs f F FEq r a Ha H) as E. fold st in E. rewrite E.
    assert (Ez : momentum st (multi_source m (mass st f) (multi_v m f)) a = 0)
      by (apply sumf_zero; intros; rewrite source_unforced by exact HF; ring).
    destruct (multi_node_inv _ _ _ _ _ Ht Hs H) as (Hd & _). fold st in Hd.
    assert (Hn : mass st f <> 0) by (apply dens_neq0; exact Hd).
    pose proof (v_unforced m HF f a Hn Ha) as V. fold st in V. rewrite Ez, V. field. exact Hn.
  Qed.
  Lemma unforced_former_momentum f F FEq r a : (a < 2)%nat -> multi_node_D2Q9 m false f F FEq = Ok r ->
    momentum st (snd r) a = momentum st f a.
  Proof.
    intros Ha H. pose proof (former_momentum m Ht Hs f F FEq r a Ha H) as E. fold st in E. rewrite E.
    destruct (multi_node_inv _ _ _ _ _ Ht Hs H) as (Hd & _). fold st in Hd.
    assert (Hn : mass st f <> 0) by (apply dens_neq0; exact Hd).
    pose proof (v_unforced m HF f a Hn Ha) as V. fold st in V. rewrite V. field. exact Hn.
  Qed.
  Lemma adv_sum : adv_f m + adv_F m = 1.
  Proof. unfold adv_f, adv_F. destruct (mu_scheme m); field. Qed.

  Lemma collide_totals x x' : carries x -> multi_collideAll m false nodes x = Ok x' ->
    carries x' /\ total_mass st nodes (fl_f (ms_x x')) = total_mass st nodes (fl_f (ms_x x)) /\
    forall a, (a < 2)%nat -> total_momentum st nodes (fl_f (ms_x x')) a = total_momentum st nodes (fl_f (ms_x x)) a.
  Proof.
    intros (M1 & M2 & J) H. destruct (multi_ok m nodes x x' Ht Hnd H) as (F1 & A & _).
    assert (HM : total_mass st nodes (fl_f (ms_x x')) = total_mass st nodes (fl_f (ms_x x))).
    { unfold total_mass.
      rewrite (total_ext nodes _ (fun n => adv_f m * mass st (fl_f (ms_x x) n) + (adv_F m * mass st (hist_F x n)
        + (factor1 m * mass st (hist_F x n) + (- factor1 m) * mass st (hist_FEq x n))))).
      2: { intros n Hn. destruct (A n Hn) as (r & Hr & E & _). rewrite E, (unforced_mass _ _ _ _ Hr). ring. }
      rewrite !total_plus, !total_scal. unfold total_mass in M1, M2. rewrite M1, M2.
      replace (adv_F m) with (1 - adv_f m) by (pose proof adv_sum; lra). ring. }
    assert (HJ : forall a, (a < 2)%nat -> total_momentum st nodes (fl_f (ms_x x')) a = total_momentum st nodes (fl_f (ms_x x)) a).
    { intros a Ha. unfold total_momentum.
      rewrite (total_ext nodes _ (fun n => adv_f m * momentum st (fl_f (ms_x x) n) a + (adv_F m * momentum st (hist_F x n) a
        + (factor1 m * momentum st (hist_F x n) a + (- factor1 m) * momentum st (hist_FEq x n) a)))).
      2: { intros n Hn. destruct (A n Hn) as (r & Hr & E & _). rewrite E, (unforced_momentum _ _ _ _ a Ha Hr). ring. }
      rewrite !total_plus, !total_scal. destruct (J a Ha) as [J1 J2]. unfold total_momentum in J1, J2. rewrite J1, J2.
      replace (adv_F m) with (1 - adv_f m) by (pose proof adv_sum; lra). ring. }
    split; [|split; assumption]. unfold carries, hist_F, hist_FEq. rewrite F1, HM.
    split; [|split].
    - apply total_ext. intros n Hn. destruct (A n Hn) as (r & Hr & E1 & E2 & E3 & E4 & E5). rewrite E4. reflexivity.
    - apply total_ext. intros n Hn. destruct (A n Hn) as (r & Hr & E1 & E2 & E3 & E4 & E5). rewrite E5.
      exact (former_mass m Ht Hs _ _ _ _ Hr).
    - intros a Ha. rewrite (HJ a Ha). split; apply total_ext; intros n Hn; destruct (A n Hn) as (r & Hr & E1 & E2 & E3 & E4 & E5).
      + rewrite E4. reflexivity.
      + rewrite E5. exact (unforced_former_momentum _ _ _ _ a Ha Hr).
  Qed.

  Lemma stream_totals T x : keeps_totals st nodes T -> carries x ->
    carries (multi_stream T x) /\ total_mass st nodes (fl_f (ms_x (multi_stream T x))) = total_mass st nodes (fl_f (ms_x x)) /\
    forall a, (a < 2)%nat -> total_momentum st nodes (fl_f (ms_x (multi_stream T x))) a = total_momentum st nodes (fl_f (ms_x x)) a.
  Proof.
    intros HT C. split; [|exact (HT (fl_f (ms_x x)))].
    destruct (ms_first x) eqn:Ef; [apply carries_first; exact Ef|].
    destruct C as (M1 & M2 & J). unfold carries, hist_F, hist_FEq in *. unfold multi_stream. cbn [ms_first ms_F ms_FEq ms_x fl_f]. rewrite Ef in *.
    destruct (HT (fl_f (ms_x x))) as [m0 j0], (HT (ms_F x)) as [m1 j1], (HT (ms_FEq x)) as [m2 j2].
    rewrite m0, m1, m2. split; [exact M1|]. split; [exact M2|]. intros a Ha. rewrite (j0 a Ha), (j1 a Ha), (j2 a Ha). exact (J a Ha).
  Qed.

  Lemma perform_totals ops : forall x x', moves_keep_totals st nodes ops -> carries x -> perform m nodes ops x = Ok x' ->
    total_mass st nodes (fl_f (ms_x x')) = total_mass st nodes (fl_f (ms_x x)) /\
    forall a, (a < 2)%nat -> total_momentum st nodes (fl_f (ms_x x')) a = total_momentum st nodes (fl_f (ms_x x)) a.
  Proof.
    induction ops as [|[|T] rest IH]; intros x x' HT C H; cbn [perform] in H.
    - injection H as <-. split; [reflexivity|intros; reflexivity].
    - destruct (multi_collideAll m false nodes x) as [y| |] eqn:Ey; try discriminate. cbn [obind] in H.
      destruct (collide_totals x y C Ey) as (Cy & My & Jy).
      destruct (IH y x' (fun T HI => HT T (or_intror HI)) Cy H) as [M J].
      split; [congruence|]. intros a Ha. rewrite (J a Ha). exact (Jy a Ha).
    - destruct (stream_totals T x (HT T (or_introl eq_refl)) C) as (Cy & My & Jy).
      destruct (IH (multi_stream T x) x' (fun T HI => HT T (or_intror HI)) Cy H) as [M J].
      split; [congruence|]. intros a Ha. rewrite (J a Ha). exact (Jy a Ha).
  Qed.

  (** ** Amplification *)
  Fixpoint amps (k : nat) : R * R :=
    match k with
    | O => (1 + factor0 m, 1)
    | S k' => let (a, b) := amps k' in ((adv_f m + factor0 m) * a + (adv_F m + factor1 m) * b, a)
    end.
  Definition amp (k : nat) : R := snd (amps k).
  Lemma amps_fst k : fst (amps k) = amp (S k).
  Proof. unfold amp. cbn [amps]. destruct (amps k) as [a b]. reflexivity. Qed.
  Lemma amp_rec k : amp (S (S k)) = (adv_f m + factor0 m) * amp (S k) + (adv_F m + factor1 m) * amp k.
  Proof.
    rewrite <- (amps_fst (S k)). rewrite <- (amps_fst k). unfold amp. cbn [amps]. destruct (amps k) as [a b]. reflexivity.
  Qed.
  Lemma amp_0 : amp 0 = 1. Proof. reflexivity. Qed.
  Lemma amp_1 : amp 1 = 1 + factor0 m. Proof. reflexivity. Qed.

  Lemma equilibrium_ext f g i : mass st f = mass st g -> (forall a, (a < 2)%nat -> momentum st f a = momentum st g a) ->
    equilibrium st f i = equilibrium st g i.
  Proof.
    intros M J. unfold equilibrium. cbv zeta. unfold st, dot. cbn [D2Q9 st_D sumf]. fold st. rewrite M, (J 0%nat), (J 1%nat) by lia. reflexivity.
  Qed.
  Lemma eqU f i : mass st f <> 0 -> (i < st_Q st)%nat -> equilibrium st f i = old_eq BGKStandard st (mass st f) (multi_v m f) i.
  Proof. intros Hr Hi. symmetry. exact (eq_unforced m Hs HF f i Hr Hi). Qed.
  Lemma equilibrium_moments f : mass st f <> 0 ->
    mass st (equilibrium st f) = mass st f /\ forall a, (a < 2)%nat -> momentum st (equilibrium st f) a = momentum st f a.
  Proof.
    intros Hr. split.
    - rewrite (mass_ext st _ _ (fun i Hi => eqU f i Hr Hi)). apply (eq9_mass m Hs).
    - intros a Ha. rewrite (momentum_ext st _ _ a (fun i Hi => eqU f i Hr Hi)).
      pose proof (eq9_momentum m Hs (mass st f) (multi_v m f) a Ha) as E. fold st in E. rewrite E.
      pose proof (v_unforced m HF f a Hr Ha) as V. fold st in V. rewrite V. field. exact Hr.
  Qed.
  Lemma combo_mass c f : mass st f <> 0 -> mass st (fun i => equilibrium st f i + c * (f i - equilibrium st f i)) = mass st f.
  Proof.
    intros Hr. destruct (equilibrium_moments f Hr) as [M _]. unfold mass in *. rewrite sumf_plus, sumf_scal, sumf_minus, M. ring.
  Qed.
  Lemma combo_momentum c f a : mass st f <> 0 -> (a < 2)%nat ->
    momentum st (fun i => equilibrium st f i + c * (f i - equilibrium st f i)) a = momentum st f a.
  Proof.
    intros Hr Ha. destruct (equilibrium_moments f Hr) as [_ J]. specialize (J a Ha). unfold momentum in *.
    rewrite (sumf_ext _ _ (fun i => equilibrium st f i * st_e st i a + c * (f i * st_e st i a - equilibrium st f i * st_e st i a))) by (intros; ring).
    rewrite sumf_plus, sumf_scal, sumf_minus, J. ring.
  Qed.

  (** State of a node after [k] collisions: [f0] are its populations at the start. *)
  Definition at_step (f0 : nat -> R) (k : nat) (x : mstate) (n : nat) : Prop :=
    let E := equilibrium st f0 in
    ms_first x = (match k with O => true | _ => false end) /\
    (forall i, (i < 9)%nat -> fl_f (ms_x x) n i = E i + amp k * (f0 i - E i)) /\
    match k with
    | O => True
    | S k' => forall i, (i < 9)%nat -> ms_F x n i = E i + amp k' * (f0 i - E i) /\ ms_FEq x n i = E i
    end.

  Lemma at_step_moments f0 k x n : mass st f0 <> 0 -> at_step f0 k x n ->
    mass st (fl_f (ms_x x) n) = mass st f0 /\ forall a, (a < 2)%nat -> momentum st (fl_f (ms_x x) n) a = momentum st f0 a.
  Proof.
    intros Hr (_ & Hf & _). split.
    - rewrite (mass_ext st _ _ Hf). apply combo_mass. exact Hr.
    - intros a Ha. rewrite (momentum_ext st _ _ a Hf). apply combo_momentum; assumption.
  Qed.

  Lemma at_step_next f0 k x x' n : 1 / 10^10 <= mass st f0 -> In n nodes -> at_step f0 k x n ->
    multi_collideAll m false nodes x = Ok x' -> at_step f0 (S k) x' n.
  Proof.
    intros Hd Hn A H. assert (Hr : mass st f0 <> 0) by (apply dens_neq0; exact Hd).
    destruct (at_step_moments f0 k x n Hr A) as [M J]. destruct A as (Ef & Hf & Hh).
    destruct (multi_ok m nodes x x' Ht Hnd H) as (F1 & B & _). destruct (B n Hn) as (r & Hn' & E1 & _ & _ & E4 & E5).
    destruct (multi_node_inv _ _ _ _ _ Ht Hs Hn') as (_ & _ & _ & He & Hg). fold st in He, Hg.
    assert (HE : forall i, (i < 9)%nat -> old_eq BGKStandard st (mass st (fl_f (ms_x x) n)) (multi_v m (fl_f (ms_x x) n)) i = equilibrium st f0 i).
    { intros i Hi. rewrite (eq_unforced m Hs HF _ i) by (try exact Hi; fold st; rewrite M; exact Hr). fold st. apply equilibrium_ext; assumption. }
    split; [exact F1|]. split.
    - intros i Hi. rewrite E1, (Hg i Hi), (HE i Hi), (source_unforced m HF), advance_lin, (Hf i Hi).
      destruct k as [|k].
      + unfold hist_F, hist_FEq. rewrite Ef, (Hf i Hi), amp_0, amp_1. replace (adv_F m) with (1 - adv_f m) by (pose proof adv_sum; lra). ring.
      + unfold hist_F, hist_FEq. rewrite Ef. destruct (Hh i Hi) as [H1 H2]. rewrite H1, H2, amp_rec.
        replace (adv_F m) with (1 - adv_f m) by (pose proof adv_sum; lra). ring.
    - intros i Hi. rewrite E4, E5, (He i Hi), (HE i Hi). split; [apply Hf; exact Hi|reflexivity].
  Qed.

  Lemma times_snoc k : forall x, collide_times m nodes (S k) x = obind (collide_times m nodes k x) (multi_collideAll m false nodes).
  Proof.
    induction k as [|k IH]; intros x.
    - cbn [collide_times obind]. destruct (multi_collideAll m false nodes x); reflexivity.
    - change (collide_times m nodes (S (S k)) x) with (obind (multi_collideAll m false nodes x) (collide_times m nodes (S k))).
      change (collide_times m nodes (S k) x) with (obind (multi_collideAll m false nodes x) (collide_times m nodes k)).
      destruct (multi_collideAll m false nodes x) as [y| |]; cbn [obind]; [apply IH|reflexivity|reflexivity].
  Qed.

  Lemma times_run k x : ms_first x = true -> (forall n, In n nodes -> 1 / 10^10 <= mass st (fl_f (ms_x x) n)) ->
    exists x', collide_times m nodes k x = Ok x' /\ ms_first x' = (match k with O => true | _ => false end) /\
      forall n, In n nodes -> at_step (fl_f (ms_x x) n) k x' n.
  Proof.
    intros Ef Hd. induction k as [|k IH].
    - exists x. split; [reflexivity|]. split; [exact Ef|]. intros n Hn. split; [exact Ef|]. split; [|exact I].
      intros i Hi. rewrite amp_0. ring.
    - destruct IH as (y & Ey & Fy & A). rewrite times_snoc, Ey. cbn [obind].
      destruct (multi_runs m nodes y Ht Hnd) as [x' Hx'].
      { intros n Hn. destruct (at_step_moments _ _ _ _ (dens_neq0 _ (Hd n Hn)) (A n Hn)) as [M _]. fold st. rewrite M. apply Hd. exact Hn. }
      exists x'. split; [exact Hx'|]. split; [exact (proj1 (multi_ok m nodes y x' Ht Hnd Hx'))|].
      intros n Hn. exact (at_step_next _ _ _ _ _ (Hd n Hn) Hn (A n Hn) Hx').
  Qed.
End Run.
