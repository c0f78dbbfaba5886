(** The multistep object: forces, other stencils, initialisation. *)
From Verif Require Import Prelude StencilData ModelStencils SpecStencils SpecCollision BigSum ProofStencils
  ModelConfigNames ModelEquilibria ModelCollision ProofEquilibria ProofEqMoments ProofCollideNode ProofCollideAll
  ModelOldCollision SpecOldCollision ProofOldCollision ProofOldNode ProofOldForce ProofOldLoop ModelMultistep SpecMultistep
  ProofMultistep ProofMultistep2 ProofMultistep3 ProofMultistep4.
Local Open Scope R_scope.

(** ** Other stencils *)
Lemma loop19_f m init nodes : forall x x', multi_loop_D3Q19 m init nodes x = Ok x' -> fl_f (ms_x x') = fl_f (ms_x x).
Proof.
  induction nodes as [|n rest IH]; intros x x' H; cbn [multi_loop_D3Q19] in H.
  - injection H as <-. reflexivity.
  - destruct (multi_node_D3Q19 m init (fl_f (ms_x x) n)) as [r| |]; try discriminate. cbn [obind] in H. rewrite (IH _ _ H). reflexivity.
Qed.
Lemma start_f x : fl_f (ms_x (start_history (reinit x))) = fl_f (ms_x x) /\ fl_f (ms_x (reinit x)) = fl_f (ms_x x).
Proof. unfold start_history, reinit. destruct (ms_first x) eqn:E; [split; reflexivity|]. rewrite E. split; reflexivity. Qed.

Lemma no_collision m init nodes x x' : om_t (mu_m m) <> Stencil_D2Q9 -> multi_collideAll m init nodes x = Ok x' ->
  fl_f (ms_x x') = fl_f (ms_x x).
Proof.
  intros Ht H. unfold multi_collideAll in H. destruct (start_f x) as [S1 S2].
  destruct (om_t (mu_m m)); try congruence; try (cbn [obind] in H; injection H as <-; exact S2).
  destruct (multi_loop_D3Q19 m init nodes (start_history (reinit x))) as [y| |] eqn:E; try discriminate. cbn [obind] in H. injection H as <-.
  cbn [ms_x]. rewrite (loop19_f _ _ _ _ _ E). exact S1.
Qed.
Lemma no_collision_times m nodes k : om_t (mu_m m) <> Stencil_D2Q9 -> forall x x', collide_times m nodes k x = Ok x' ->
  fl_f (ms_x x') = fl_f (ms_x x).
Proof.
  intros Ht. induction k as [|k IH]; intros x x' H; cbn [collide_times] in H; [injection H as <-; reflexivity|].
  destruct (multi_collideAll m false nodes x) as [y| |] eqn:E; try discriminate. cbn [obind] in H.
  rewrite (IH _ _ H). exact (no_collision _ _ _ _ _ Ht E).
Qed.
Lemma silent m init nodes x : om_t (mu_m m) <> Stencil_D2Q9 -> om_t (mu_m m) <> Stencil_D3Q19 ->
  exists x', multi_collideAll m init nodes x = Ok x' /\ ms_x x' = ms_x x.
Proof.
  intros H1 H2. unfold multi_collideAll.
  assert (E : ms_x (reinit x) = ms_x x) by (unfold reinit; destruct (ms_first x); reflexivity).
  destruct (om_t (mu_m m)); try congruence; (eexists; split; [reflexivity|exact E]).
Qed.
Lemma perform_other m nodes ops : om_t (mu_m m) <> Stencil_D2Q9 ->
  forall x x', moves_keep_totals (stencil_of (om_t (mu_m m)) (om_s (mu_m m))) nodes ops -> perform m nodes ops x = Ok x' ->
  let st := stencil_of (om_t (mu_m m)) (om_s (mu_m m)) in
  total_mass st nodes (fl_f (ms_x x')) = total_mass st nodes (fl_f (ms_x x)) /\
  forall a, (a < st_D st)%nat -> total_momentum st nodes (fl_f (ms_x x')) a = total_momentum st nodes (fl_f (ms_x x)) a.
Proof.
  intros Ht. cbv zeta. induction ops as [|[|T] rest IH]; intros x x' HT H; cbn [perform] in H.
  - injection H as <-. split; [reflexivity|intros; reflexivity].
  - destruct (multi_collideAll m false nodes x) as [y| |] eqn:E; try discriminate. cbn [obind] in H.
    destruct (IH y x' (fun T HI => HT T (or_intror HI)) H) as [M J]. rewrite <- (no_collision _ _ _ _ _ Ht E). split; assumption.
  - destruct (IH (multi_stream T x) x' (fun T HI => HT T (or_intror HI)) H) as [M J].
    destruct (HT T (or_introl eq_refl) (fl_f (ms_x x))) as [M1 J1].
    split; [rewrite M; exact M1|]. intros a Ha. rewrite (J a Ha). exact (J1 a Ha).
Qed.

(** ** Initialisation *)
Lemma init_ub m n rest x : om_t (mu_m m) = Stencil_D2Q9 \/ om_t (mu_m m) = Stencil_D3Q19 ->
  1 / 10^10 <= mass (stencil_of (om_t (mu_m m)) (om_s (mu_m m))) (fl_f (ms_x x) n) ->
  multi_collideAll m true (n :: rest) x = UB.
Proof.
  intros Ht Hd. unfold multi_collideAll. destruct (start_f x) as [S1 _].
  destruct Ht as [Ht|Ht]; rewrite Ht in Hd |- *; cbn [multi_loop_D2Q9 multi_loop_D3Q19 stencil_of] in Hd |- *; rewrite S1.
  - unfold multi_node_D2Q9. rewrite checked_ok; [reflexivity|exact Hd].
  - unfold multi_node_D3Q19. rewrite checked_ok; [reflexivity|exact Hd].
Qed.

(** ** Forces *)
Section Force.
  Variables (m : multi) (nodes : list nat).
  Let s := om_s (mu_m m).
  Let st := D2Q9 s.
  Hypothesis Ht : om_t (mu_m m) = Stencil_D2Q9.
  Hypothesis Hs : s <> 0.
  Hypothesis Hnd : NoDup nodes.

  Lemma raw_ok f a : mass st f <> 0 -> (a < 2)%nat -> raw_D2Q9 s (mass st f) f a = momentum st f a / mass st f.
  Proof. intros Hr Ha. apply raw9_ok; assumption. Qed.

  Section Exact.
    Hypothesis HF : om_forceType (mu_m m) = EXACT_DIFFERENCE.
    Lemma v_exact f a : mass st f <> 0 -> (a < 2)%nat -> multi_v m f a = momentum st f a / mass st f.
    Proof. intros Hr Ha. unfold multi_v, force_velocities. cbn [forced om_forceType]. rewrite HF. cbn [snd]. apply raw_ok; assumption. Qed.
    Lemma exact_node f F FEq r a : (a < 2)%nat -> multi_node_D2Q9 m false f F FEq = Ok r ->
      momentum st (no_f (fst r)) a = adv_f m * momentum st f a + adv_F m * momentum st F a
        + factor1 m * (momentum st F a - momentum st FEq a) + om_dt (mu_m m) * om_F (mu_m m) a /\
      momentum st (snd r) a = momentum st f a.
    Proof.
      intros Ha H. destruct (multi_node_inv _ _ _ _ _ Ht Hs H) as (Hd & _). fold s in Hd. fold st in Hd.
      assert (Hr : mass st f <> 0) by (apply dens_neq0; exact Hd). pose proof (v_exact f a Hr Ha) as V. split.
      - pose proof (node_momentum m Ht Hs f F FEq r a Ha H) as E. fold s in E. fold st in E. rewrite E, V.
        unfold multi_source, source_D2Q9. cbn [forced om_forceType om_F om_dt om_s om_t]. rewrite HF, Ht. cbn [stencil_of]. fold s. 
        unfold st. rewrite edm_momentum by assumption. fold st. field. exact Hr.
      - pose proof (former_momentum m Ht Hs f F FEq r a Ha H) as E. fold s in E. fold st in E. rewrite E, V. field. exact Hr.
    Qed.

    (** Adams-Moulton: every collision adds dt F to every node. *)
    Hypothesis Hc : mu_scheme m = ADAMSMOULTON4.
    Definition same_history (x : mstate) : Prop :=
      forall a, (a < 2)%nat -> total_momentum st nodes (hist_F x) a = total_momentum st nodes (hist_FEq x) a.
    Lemma total_const v : total nodes (fun _ => v) = INR (length nodes) * v.
    Proof.
      unfold total. induction nodes as [|n rest IH]; [cbn; ring|]. cbn [map fold_right length]. rewrite S_INR, IH; [ring|].
      inversion Hnd; assumption.
    Qed.
    Lemma exact_collide x x' : same_history x -> multi_collideAll m false nodes x = Ok x' ->
      same_history x' /\ forall a, (a < 2)%nat -> total_momentum st nodes (fl_f (ms_x x')) a
        = total_momentum st nodes (fl_f (ms_x x)) a + INR (length nodes) * (om_dt (mu_m m) * om_F (mu_m m) a).
    Proof.
      intros J H. destruct (multi_ok m nodes x x' Ht Hnd H) as (F1 & A & _). split.
      - intros a Ha. unfold hist_F, hist_FEq. rewrite F1. apply total_ext. intros n Hn.
        destruct (A n Hn) as (r & Hr & E1 & E2 & E3 & E4 & E5). rewrite E4, E5. symmetry. exact (proj2 (exact_node _ _ _ _ a Ha Hr)).
      - intros a Ha. unfold total_momentum.
        rewrite (total_ext nodes _ (fun n => momentum st (fl_f (ms_x x) n) a + (factor1 m * momentum st (hist_F x n) a
          + ((- factor1 m) * momentum st (hist_FEq x n) a + om_dt (mu_m m) * om_F (mu_m m) a)))).
        2: { intros n Hn. destruct (A n Hn) as (r & Hr & E & _). rewrite E, (proj1 (exact_node _ _ _ _ a Ha Hr)).
             unfold adv_f, adv_F. rewrite Hc. ring. }
        rewrite !total_plus, !total_scal, total_const. specialize (J a Ha). unfold total_momentum in J. rewrite J. ring.
    Qed.
    Lemma exact_perform ops : forall x x', moves_keep_totals st nodes ops -> same_history x -> perform m nodes ops x = Ok x' ->
      forall a, (a < 2)%nat -> total_momentum st nodes (fl_f (ms_x x')) a
        = total_momentum st nodes (fl_f (ms_x x)) a + INR (collisions ops) * (INR (length nodes) * (om_dt (mu_m m) * om_F (mu_m m) a)).
    Proof.
      induction ops as [|[|T] rest IH]; intros x x' HT C H a Ha; cbn [perform] in H.
      - injection H as <-. cbn [collisions INR]. ring.
      - destruct (multi_collideAll m false nodes x) as [y| |] eqn:Ey; try discriminate. cbn [obind] in H.
        destruct (exact_collide x y C Ey) as [Cy Jy].
        rewrite (IH y x' (fun T HI => HT T (or_intror HI)) Cy H a Ha), (Jy a Ha). cbn [collisions]. rewrite S_INR. ring.
      - pose proof (HT T (or_introl eq_refl)) as KT.
        assert (Cy : same_history (multi_stream T x)).
        { intros b Hb. specialize (C b Hb). unfold hist_F, hist_FEq in *. unfold multi_stream. cbn [ms_first ms_F ms_FEq ms_x fl_f].
          destruct (ms_first x); [reflexivity|]. rewrite (proj2 (KT (ms_F x)) b Hb), (proj2 (KT (ms_FEq x)) b Hb). exact C. }
        rewrite (IH (multi_stream T x) x' (fun T HI => HT T (or_intror HI)) Cy H a Ha).
        unfold multi_stream. cbn [ms_x fl_f collisions]. rewrite (proj2 (KT (fl_f (ms_x x))) a Ha). reflexivity.
    Qed.
  End Exact.

  (** Backward differentiation with the exact difference force. *)
  Section ExactBdf.
    Hypothesis HF : om_forceType (mu_m m) = EXACT_DIFFERENCE.
    Hypothesis Hc : mu_scheme m = BDF2.
    Let grown (k : nat) : R := 3/2 * INR k - 3/4 * (1 - (1/3) ^ k).
    Lemma bdf_times k : forall x x' n a, ms_first x = true -> In n nodes -> (a < 2)%nat -> collide_times m nodes k x = Ok x' ->
      let p j := momentum st (fl_f (ms_x x) n) a + grown j * (om_dt (mu_m m) * om_F (mu_m m) a) in
      ms_first x' = (match k with O => true | _ => false end) /\
      momentum st (fl_f (ms_x x') n) a = p k /\
      match k with O => True | S j => momentum st (ms_F x' n) a = p j /\ momentum st (ms_FEq x' n) a = p j end.
    Proof.
      induction k as [|k IH]; intros x x' n a Hf Hn Ha H p.
      - cbn [collide_times] in H. injection H as <-. split; [exact Hf|]. split; [|exact I]. unfold p, grown. cbn [INR]. rewrite pow_O. ring.
      - rewrite times_snoc in H. destruct (collide_times m nodes k x) as [y| |] eqn:Ey; try discriminate. cbn [obind] in H.
        destruct (IH x y n a Hf Hn Ha Ey) as (Fy & Py & Hy). fold p in Py, Hy.
        destruct (multi_ok m nodes y x' Ht Hnd H) as (F1 & A & _). destruct (A n Hn) as (r & Hr & E1 & E2 & E3 & E4 & E5).
        destruct (exact_node HF _ _ _ _ a Ha Hr) as [X1 X2]. split; [exact F1|]. rewrite E1, E4, E5, X2, Py. split; [|split; reflexivity].
        rewrite X1, Py. unfold adv_f, adv_F. rewrite Hc. unfold hist_F, hist_FEq. rewrite Fy. destruct k as [|k].
        + rewrite Py. unfold p, grown. cbn [INR]. rewrite pow_1, pow_O. field.
        + destruct Hy as [Y1 Y2]. rewrite Y1, Y2. unfold p, grown. rewrite (S_INR (S k)), (S_INR k). cbn [pow]. field.
    Qed.
  End ExactBdf.

  (** First collision with the other force schemes. *)
  Lemma shifting_first x x' n a : om_forceType (mu_m m) = SHIFTING_VELOCITY -> relax_factor m <> 0 -> ms_first x = true -> In n nodes -> (a < 2)%nat ->
    multi_collideAll m false nodes x = Ok x' ->
    momentum st (fl_f (ms_x x') n) a = momentum st (fl_f (ms_x x) n) a + factor0 m / relax_factor m * (om_dt (mu_m m) * om_F (mu_m m) a).
  Proof.
    intros HF Hrf Hf Hn Ha H. destruct (multi_ok m nodes x x' Ht Hnd H) as (_ & A & _). destruct (A n Hn) as (r & Hr & E1 & _).
    destruct (multi_node_inv _ _ _ _ _ Ht Hs Hr) as (Hd & _). fold s in Hd. fold st in Hd.
    assert (Hr0 : mass st (fl_f (ms_x x) n) <> 0) by (apply dens_neq0; exact Hd).
    pose proof (node_momentum m Ht Hs _ _ _ _ a Ha Hr) as E. fold s in E. fold st in E. rewrite E1, E.
    assert (V : multi_v m (fl_f (ms_x x) n) a = momentum st (fl_f (ms_x x) n) a / mass st (fl_f (ms_x x) n)
      - 1 / relax_factor m * om_dt (mu_m m) * om_F (mu_m m) a / mass st (fl_f (ms_x x) n)).
    { unfold multi_v, force_velocities. cbn [forced om_forceType om_F om_dt om_prefactor]. rewrite HF. cbn [snd]. fold s. fold st.
      rewrite (raw_ok _ a Hr0 Ha). reflexivity. }
    assert (Ez : momentum st (multi_source m (mass st (fl_f (ms_x x) n)) (multi_v m (fl_f (ms_x x) n))) a = 0).
    { apply sumf_zero. intros. unfold multi_source, source_D2Q9. cbn [forced om_forceType]. rewrite HF. ring. }
    rewrite Ez, V. unfold hist_F, hist_FEq. rewrite Hf. replace (adv_F m) with (1 - adv_f m) by (pose proof (adv_sum m); lra). field.
    split; assumption.
  Qed.
  Lemma guo_first x x' n a : om_forceType (mu_m m) = GUO -> ms_first x = true -> In n nodes -> (a < 2)%nat ->
    multi_collideAll m false nodes x = Ok x' ->
    momentum st (fl_f (ms_x x') n) a = momentum st (fl_f (ms_x x) n) a + (1 + (relax_factor m - factor0 m) / 2) * (om_dt (mu_m m) * om_F (mu_m m) a).
  Proof.
    intros HF Hf Hn Ha H. destruct (multi_ok m nodes x x' Ht Hnd H) as (_ & A & _). destruct (A n Hn) as (r & Hr & E1 & _).
    destruct (multi_node_inv _ _ _ _ _ Ht Hs Hr) as (Hd & _). fold s in Hd. fold st in Hd.
    assert (Hr0 : mass st (fl_f (ms_x x) n) <> 0) by (apply dens_neq0; exact Hd).
    pose proof (node_momentum m Ht Hs _ _ _ _ a Ha Hr) as E. fold s in E. fold st in E. rewrite E1, E.
    assert (V : multi_v m (fl_f (ms_x x) n) a = momentum st (fl_f (ms_x x) n) a / mass st (fl_f (ms_x x) n)
      + 1/2 * om_dt (mu_m m) * om_F (mu_m m) a / mass st (fl_f (ms_x x) n)).
    { unfold multi_v, force_velocities. cbn [forced om_forceType om_F om_dt om_prefactor]. rewrite HF. cbn [snd]. fold s. fold st.
      rewrite (raw_ok _ a Hr0 Ha). reflexivity. }
    assert (Ez : momentum st (multi_source m (mass st (fl_f (ms_x x) n)) (multi_v m (fl_f (ms_x x) n))) a
                 = (1 - 1/2 * - relax_factor m) * om_dt (mu_m m) * om_F (mu_m m) a).
    { unfold multi_source, source_D2Q9. cbn [forced om_forceType om_F om_dt om_s om_t om_prefactor]. rewrite HF, Ht. cbn [stencil_of]. fold s.
      unfold st. apply guo_momentum; assumption. }
    rewrite Ez, V. unfold hist_F, hist_FEq. rewrite Hf. replace (adv_F m) with (1 - adv_f m) by (pose proof (adv_sum m); lra). field. exact Hr0.
  Qed.
End Force.

(** The same for the object of the solver. *)
Lemma made_force c s nu dt m ft F : make_multi c Stencil_D2Q9 s nu dt = Ok m ->
  let m' := multi_force m ft F in
  om_t (mu_m m') = Stencil_D2Q9 /\ om_s (mu_m m') = s /\ om_dt (mu_m m') = dt /\ om_forceType (mu_m m') = ft /\ om_F (mu_m m') = F /\
  mu_scheme m' = c /\ factor0 m' = factor0 m /\ relax_factor m' = relax_factor m.
Proof.
  intros H. destruct (made _ _ _ _ _ H) as (_ & _ & Ec & En & Et & Es & Ed & Ef). cbv zeta.
  unfold factor0, relax_factor, multi_lambda, multi_force, with_force. cbn [mu_m mu_scheme mu_nu om_t om_s om_dt om_forceType om_F]. repeat split; assumption.
Qed.
