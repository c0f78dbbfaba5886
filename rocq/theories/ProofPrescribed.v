(** Values at a boundary. *)
From Coq Require Import QArith Qreals.
From Verif Require Import Prelude StencilData ModelStencils SpecCollision BigSum ProofDeriv ProofOldCollision ModelPrescribed SpecPrescribed.
Local Open Scope R_scope.

(** ** FEBoundaryValues *)
Lemma dl_sum n F F' x : (forall d, (d < n)%nat -> derivable_pt_lim (F d) x (F' d)) ->
  derivable_pt_lim (fun s => sumf n (fun d => F d s)) x (sumf n F').
Proof.
  induction n as [|n IH]; intros H; cbn [sumf]; [apply dl_const|].
  apply (dl_plus (fun s => sumf n (fun d => F d s)) (F n)); [apply IH; intros; apply H; lia|apply H; lia].
Qed.

Lemma partial_fe n shape v x i g : (forall d, (d < n)%nat -> partial (shape d) x i (g d)) ->
  partial (fe_field n shape v) x i (sumf n (fun d => v d * g d)).
Proof.
  intros H. unfold partial, fe_field. apply (dl_sum n (fun d s => v d * shape d (shift x i s)) (fun d => v d * g d)).
  intros d Hd. eapply dl_eq; [apply (dl_mult (fun _ => v d) (fun s => shape d (shift x i s)) 0); [apply dl_const|apply H; assumption]|].
  cbv beta. ring.
Qed.

Section FE.
  Variables (st : stencil) (nu dt : R) (n : nat) (f : nat -> nat -> R).
  Variables (phi : nat -> R) (gphi : nat -> nat -> R) (hphi : nat -> nat -> nat -> R).
  Variables (shape : nat -> field) (x : nat -> R).
  Let D := st_D st.
  Hypothesis Hshape : shapes D n shape x phi gphi hphi.
  Let R_ d := mass st (fun q => f q d).
  Let J d i := momentum st (fun q => f q d) i.
  Let U d i := J d i / R_ d.

  Lemma fe_value v : sumf n (fun d => v d * phi d) = fe_field n shape v x.
  Proof. unfold fe_field. apply sumf_ext. intros d Hd. destruct Hshape as [H _]. rewrite (H d Hd). reflexivity. Qed.

  Lemma continuity : continuity_equation D (fun i => fe_field n shape (fun d => J d i)) x
    (sumf n (fun d => sumf D (fun i => gphi d i * J d i)) * -1).
  Proof.
    destruct Hshape as [_ (grad & Hg & _)]. exists (fun i => sumf n (fun d => J d i * gphi d i)). split.
    - intros i Hi. apply partial_fe. intros d Hd. destruct (Hg d i Hd Hi) as [A B]. rewrite <- B. apply A.
    - rewrite sumf_swap. rewrite (sumf_ext D _ (fun i => sumf n (fun d => J d i * gphi d i))); [ring|].
      intros i _. apply sumf_ext. intros. ring.
  Qed.

  Lemma momentum_eq rho (u : nat -> R) : rho = fe_field n shape R_ x -> (forall k, (k < D)%nat -> u k = fe_field n shape (fun d => U d k) x) ->
    momentum_equation D (st_cs2 st) nu (fe_field n shape R_) (fun k => fe_field n shape (fun d => U d k)) x
      (fun i => (sumf n (fun d => sumf D (fun k => hphi d k k * U d i + hphi d i k * U d k)) * - nu +
       sumf n (fun d => sumf D (fun k => u k * gphi d k * U d i) + st_cs2 st / rho * gphi d i * R_ d)) * -1).
  Proof.
    intros -> Hu. destruct Hshape as [_ (grad & Hg & Hh)].
    assert (G : forall d i y, (d < n)%nat -> (i < D)%nat -> partial (shape d) y i (grad d i y)) by (intros; apply Hg; assumption).
    assert (G0 : forall d i, (d < n)%nat -> (i < D)%nat -> partial (shape d) x i (gphi d i)).
    { intros d i Hd Hi. destruct (Hg d i Hd Hi) as [A B]. rewrite <- B. apply A. }
    exists (fun i k => sumf n (fun d => U d i * gphi d k)), (fun i k l => sumf n (fun d => U d i * hphi d k l)), (fun i => sumf n (fun d => R_ d * gphi d i)).
    split; [|split; [|split]].
    - intros i k Hi Hk. apply partial_fe. intros d Hd. apply G0; assumption.
    - intros i k l Hi Hk Hl. exists (fe_field n (fun d => grad d k) (fun d => U d i)). split.
      + intros y. apply (partial_fe n shape (fun d => U d i) y k (fun d => grad d k y)). intros d Hd. apply G; assumption.
      + apply partial_fe. intros d Hd. apply Hh; assumption.
    - intros i Hi. apply partial_fe. intros d Hd. apply G0; assumption.
    - intros i Hi. rewrite sumf_plus.
      rewrite (sumf_ext D (fun k => fe_field n shape (fun d => U d k) x * sumf n (fun d => U d i * gphi d k))
        (fun k => sumf n (fun d => u k * gphi d k * U d i))).
      2:{ intros k Hk. rewrite <- (Hu k Hk), <- sumf_scal. apply sumf_ext. intros. ring. }
      rewrite (sumf_swap D n (fun k d => u k * gphi d k * U d i)).
      rewrite (sumf_ext n (fun d => st_cs2 st / fe_field n shape R_ x * gphi d i * R_ d)
        (fun d => st_cs2 st / fe_field n shape R_ x * (R_ d * gphi d i))) by (intros; ring).
      rewrite sumf_scal.
      rewrite (sumf_ext D (fun k => sumf n (fun d => U d i * hphi d k k) + sumf n (fun d => U d k * hphi d i k))
        (fun k => sumf n (fun d => hphi d k k * U d i + hphi d i k * U d k))).
      2:{ intros k _. rewrite <- sumf_plus. apply sumf_ext. intros. ring. }
      rewrite (sumf_swap D n (fun k d => hphi d k k * U d i + hphi d i k * U d k)). unfold Rdiv. ring.
  Qed.


  Lemma fe_inv flags z y : fe_reinit st nu dt n f phi gphi hphi flags z = Ok y ->
    served flags /\ fe_upToDate y = flags /\
    (has boundary_rho flags = true -> fe_rho y = fe_field n shape R_ x) /\
    (has boundary_u flags = true ->
      (forall i, (i < D)%nat -> fe_u y i = fe_field n shape (fun d => U d i) x) /\ (forall d, (d < n)%nat -> R_ d <> 0) /\
      sqrt (sumf D (fun i => (fe_u y i * fe_rho y - fe_field n shape (fun d => J d i) x) ^ 2)) < 1 / 10 ^ 10) /\
    (has boundary_drho_dt flags = true -> continuity_equation D (fun i => fe_field n shape (fun d => J d i)) x (fe_drhodt y)) /\
    (has boundary_du_dt flags = true -> fe_rho y <> 0 /\
      momentum_equation D (st_cs2 st) nu (fe_field n shape R_) (fun k => fe_field n shape (fun d => U d k)) x (fe_dudt y)).
  Proof.
    intros H. unfold fe_reinit in H.
    destruct (N.eqb flags only_distributions) eqn:E0.
    { apply N.eqb_eq in E0. subst flags. cbn in H. injection H as <-. cbn [fe_upToDate]. split; [left; reflexivity|]. split; [reflexivity|].
      split; [|split; [|split]]; intros X; discriminate X. }
    cbn [negb when] in H. unfold calculateRho at 1 in H. cbn [fe_upToDate] in H. change (has boundary_rho only_distributions) with false in H. cbv iota in H.
    unfold positive_data in H. destruct (Rlt_dec 0 nu) as [Hnu|]; [|discriminate]. destruct (Rlt_dec 0 dt) as [Hdt|]; [|discriminate].
    cbv zeta in H. cbn [obind] in H.
    change (N.lor only_distributions boundary_rho) with 1%N in H.
    destruct (has boundary_drho_dt flags || has boundary_u flags || has boundary_du_dt flags)%bool eqn:E1; cbn [when] in H.
    2:{ apply orb_false_iff in E1. destruct E1 as [E1 E3]. apply orb_false_iff in E1. destruct E1 as [E1 E2]. rewrite E1, E3 in H. cbn [when obind fe_upToDate] in H.
        destruct (N.eqb flags 1) eqn:Ef; [|discriminate]. apply N.eqb_eq in Ef. subst flags. injection H as <-. cbn [fe_upToDate fe_rho].
        split; [right; left; reflexivity|]. split; [reflexivity|]. split; [intros _; apply fe_value|]. split; [|split]; intros X; discriminate X. }
    unfold calculateU at 1 in H. cbn [fe_upToDate fe_rho_dof fe_rho] in H. change (has boundary_rho 1) with true in H. change (has boundary_u 1) with false in H. cbv iota in H. cbn [negb] in H.
    unfold positive_data in H. destruct (Rlt_dec 0 nu) as [_|]; [|contradiction]. destruct (Rlt_dec 0 dt) as [_|]; [|contradiction]. cbv zeta in H.
    destruct (nonzero_densities n _) eqn:En; cbn [negb] in H; [|discriminate].
    destruct (Rlt_dec _ _) as [Hclose|] in H; [|discriminate]. cbn [obind] in H. change (N.lor 1 boundary_u) with 3%N in H.
    assert (Hnz : forall d, (d < n)%nat -> R_ d <> 0).
    { intros d Hd. unfold nonzero_densities in En. rewrite forallb_forall in En. specialize (En d). rewrite in_seq in En.
      destruct (Req_EM_T (sumf (st_Q st) (fun q => f q d)) 0) as [E|E]; [|exact E]. assert (X : false = true) by (apply En; lia). discriminate X. }
    assert (Hv : (has boundary_u flags = true ->
      (forall i, (i < D)%nat -> sumf n (fun d => J d i / R_ d * phi d) = fe_field n shape (fun d => U d i) x) /\ (forall d, (d < n)%nat -> R_ d <> 0) /\
      sqrt (sumf D (fun i => (sumf n (fun d => J d i / R_ d * phi d) * sumf n (fun d => R_ d * phi d) - fe_field n shape (fun d => J d i) x) ^ 2)) < 1 / 10 ^ 10)).
    { intros _. split; [intros i _; apply fe_value|]. split; [exact Hnz|]. eapply Rle_lt_trans; [|exact Hclose]. right. f_equal. fold D. apply sumf_ext. intros i _.
      rewrite <- (fe_value (fun d => J d i)). reflexivity. }
    destruct (has boundary_drho_dt flags) eqn:Ed; cbn [when] in H.
    - unfold calculateDRhoDt at 1 in H. cbn [fe_upToDate fe_rho_u_dof] in H. change (has boundary_drho_dt 3) with false in H. change (has boundary_u 3) with true in H. cbv iota in H. cbn [negb obind] in H.
      change (N.lor 3 boundary_drho_dt) with 11%N in H.
      destruct (has boundary_du_dt flags) eqn:Et; cbn [when] in H.
      + unfold calculateDuDt in H. cbn [fe_upToDate fe_rho fe_u fe_u_dof fe_rho_dof] in H. change (has boundary_du_dt 11) with false in H. change (has boundary_u 11) with true in H. change (has boundary_rho 11) with true in H. cbv iota in H. cbn [negb] in H.
        destruct (Req_EM_T _ 0) as [|Hr] in H; [discriminate|]. cbv zeta in H. cbn [obind fe_upToDate] in H. change (N.lor 11 boundary_du_dt) with 27%N in H.
        destruct (N.eqb flags 27) eqn:Ef; [|discriminate]. apply N.eqb_eq in Ef. subst flags. injection H as <-. cbn [fe_upToDate fe_rho fe_u fe_drhodt fe_dudt].
        split; [cbn; tauto|]. split; [reflexivity|]. split; [intros _; apply fe_value|]. split; [exact Hv|]. split; [intros _; apply continuity|].
        intros _. split; [exact Hr|]. apply momentum_eq; [apply fe_value|intros k _; apply fe_value].
      + cbn [obind fe_upToDate] in H. destruct (N.eqb flags 11) eqn:Ef; [|discriminate]. apply N.eqb_eq in Ef. subst flags. injection H as <-. cbn [fe_upToDate fe_rho fe_u fe_drhodt fe_dudt].
        split; [cbn; tauto|]. split; [reflexivity|]. split; [intros _; apply fe_value|]. split; [exact Hv|]. split; [intros _; apply continuity|]. intros X; discriminate X.
    - cbn [obind] in H. destruct (has boundary_du_dt flags) eqn:Et; cbn [when] in H.
      + unfold calculateDuDt in H. cbn [fe_upToDate fe_rho fe_u fe_u_dof fe_rho_dof] in H. change (has boundary_du_dt 3) with false in H. change (has boundary_u 3) with true in H. change (has boundary_rho 3) with true in H. cbv iota in H. cbn [negb] in H.
        destruct (Req_EM_T _ 0) as [|Hr] in H; [discriminate|]. cbv zeta in H. cbn [obind fe_upToDate] in H. change (N.lor 3 boundary_du_dt) with 19%N in H.
        destruct (N.eqb flags 19) eqn:Ef; [|discriminate]. apply N.eqb_eq in Ef. subst flags. injection H as <-. cbn [fe_upToDate fe_rho fe_u fe_drhodt fe_dudt].
        split; [cbn; tauto|]. split; [reflexivity|]. split; [intros _; apply fe_value|]. split; [exact Hv|]. split; [intros X; discriminate X|].
        intros _. split; [exact Hr|]. apply momentum_eq; [apply fe_value|intros k _; apply fe_value].
      + cbn [obind fe_upToDate] in H. destruct (N.eqb flags 3) eqn:Ef; [|discriminate]. apply N.eqb_eq in Ef. subst flags. injection H as <-. cbn [fe_upToDate fe_rho fe_u fe_drhodt fe_dudt].
        split; [cbn; tauto|]. split; [reflexivity|]. split; [intros _; apply fe_value|]. split; [exact Hv|]. split; intros X; discriminate X.
  Qed.

  Lemma fe_succeeds flags z : served flags -> 0 < nu -> 0 < dt ->
    (has boundary_u flags = true -> (forall d, (d < n)%nat -> R_ d <> 0) /\ fe_field n shape R_ x <> 0 /\
      (forall i, (i < D)%nat -> fe_field n shape (fun d => U d i) x * fe_field n shape R_ x = fe_field n shape (fun d => J d i) x)) ->
    exists y, fe_reinit st nu dt n f phi gphi hphi flags z = Ok y.
  Proof.
    intros Hs Hnu Hdt Hu.
    assert (Ez : forall k, sumf D (fun i => (fe_field n shape (fun d => U d i) x * fe_field n shape R_ x - fe_field n shape (fun d => J d i) x) ^ 2) = 0 ->
      k = sumf D (fun i => (sumf n (fun d => U d i * phi d) * sumf n (fun d => R_ d * phi d) - sumf n (fun d => J d i * phi d)) ^ 2) -> sqrt k < 1 / 10 ^ 10).
    { intros k A ->. rewrite (sumf_ext D _ (fun i => (fe_field n shape (fun d => U d i) x * fe_field n shape R_ x - fe_field n shape (fun d => J d i) x) ^ 2)).
      - rewrite A, sqrt_0. replace (1 / 10 ^ 10) with (1 / 10000000000) by field. lra.
      - intros i _. rewrite (fe_value (fun d => U d i)), (fe_value R_), (fe_value (fun d => J d i)). reflexivity. }
    assert (Hd : has boundary_u flags = true -> nonzero_densities n (fun d => sumf (st_Q st) (fun q => f q d)) = true /\ fe_field n shape R_ x <> 0 /\
      sumf D (fun i => (fe_field n shape (fun d => U d i) x * fe_field n shape R_ x - fe_field n shape (fun d => J d i) x) ^ 2) = 0).
    { intros X. destruct (Hu X) as (A & B & C). split; [|split; [exact B|]].
      - unfold nonzero_densities. apply forallb_forall. intros d Hin. apply in_seq in Hin. destruct (Req_EM_T _ 0) as [E|]; [|reflexivity]. exfalso. apply (A d); [lia|exact E].
      - apply sumf_zero. intros i Hi. rewrite (C i Hi). ring. }
    clear Hu.
    assert (P1 : forall (A : Type) (k : outcome A), positive_data nu dt k = k).
    { intros A k. unfold positive_data. destruct (Rlt_dec 0 nu); [|contradiction]. destruct (Rlt_dec 0 dt); [reflexivity|contradiction]. }
    unfold served in Hs. cbn [In] in Hs.
    destruct Hs as [<-|[<-|Hs]]; [eexists; reflexivity|unfold fe_reinit, when, calculateRho; cbn; rewrite P1; eexists; reflexivity|].
    assert (Hf : has boundary_u flags = true) by (destruct Hs as [<-|[<-|[<-|[<-|[]]]]]; reflexivity).
    destruct (Hd Hf) as (N1 & N2 & N3). clear Hd Hf.
    assert (N4 : fe_field n shape R_ x = sumf n (fun d => sumf (st_Q st) (fun q => f q d) * phi d)) by (symmetry; apply (fe_value R_)).
    rewrite N4 in N2.
    assert (Ecl : sqrt (sumf (st_D st) (fun i => (sumf n (fun d => sumf (st_Q st) (fun q => f q d * st_e st q i) / sumf (st_Q st) (fun q => f q d) * phi d)
       * sumf n (fun d => sumf (st_Q st) (fun q => f q d) * phi d) - sumf n (fun d => sumf (st_Q st) (fun q => f q d * st_e st q i) * phi d)) ^ 2)) < 1 / 10 ^ 10)
      by (apply Ez; [exact N3|reflexivity]).
    destruct Hs as [<-|[<-|[<-|[<-|[]]]]]; unfold fe_reinit; cbn -[Rlt_dec sqrt pow sumf Req_EM_T calculateRho calculateU calculateDRhoDt calculateDuDt];
    unfold calculateRho; cbn -[Rlt_dec sqrt pow sumf Req_EM_T calculateU calculateDRhoDt calculateDuDt nonzero_densities]; rewrite P1;
    cbn -[Rlt_dec sqrt pow sumf Req_EM_T calculateU calculateDRhoDt calculateDuDt nonzero_densities];
    unfold calculateU; cbn -[Rlt_dec sqrt pow sumf Req_EM_T calculateDRhoDt calculateDuDt nonzero_densities]; rewrite P1, N1; cbn [negb];
    (match goal with |- context [Rlt_dec ?a ?b] => destruct (Rlt_dec a b) as [_|X]; [|exfalso; apply X; exact Ecl] end);
    cbn -[sqrt pow sumf Req_EM_T]; try (eexists; reflexivity);
    (match goal with |- context [Req_EM_T ?a ?b] => destruct (Req_EM_T a b) as [X|_]; [exfalso; apply N2; exact X|] end); cbn; eexists; reflexivity.
  Qed.
End FE.

(** Any other request fails. *)
Lemma fe_other st nu dt n f phi gphi hphi flags z y : ~ served flags -> fe_reinit st nu dt n f phi gphi hphi flags z <> Ok y.
Proof.
  intros Hs H. apply Hs. clear Hs. unfold fe_reinit in H.
  destruct (N.eqb flags only_distributions) eqn:E0; [apply N.eqb_eq in E0; subst flags; left; reflexivity|].
  cbn [negb when] in H. unfold calculateRho at 1, positive_data in H. change (has boundary_rho (fe_upToDate _)) with false in H. cbv iota in H.
  destruct (Rlt_dec 0 nu) as [Hnu|]; [|discriminate]. destruct (Rlt_dec 0 dt) as [Hdt|]; [|discriminate]. cbn [obind] in H.
  destruct (has boundary_drho_dt flags || has boundary_u flags || has boundary_du_dt flags)%bool eqn:E1; cbn [when] in H.
  - unfold calculateU at 1, positive_data in H. change (has boundary_rho (fe_upToDate _)) with true in H. change (has boundary_u (fe_upToDate _)) with false in H. cbv iota zeta in H. cbn [negb] in H.
    destruct (Rlt_dec 0 nu); [|contradiction]. destruct (Rlt_dec 0 dt); [|contradiction].
    destruct (nonzero_densities n _); cbn [negb] in H; [|discriminate]. destruct (Rlt_dec _ _) in H; [|discriminate]. cbn [obind] in H.
    destruct (has boundary_drho_dt flags); cbn [when obind] in H.
    + unfold calculateDRhoDt in H. cbn -[sumf] in H. destruct (has boundary_du_dt flags); cbn [when obind] in H.
      * unfold calculateDuDt in H. cbn -[sumf Req_EM_T pow] in H. destruct (Req_EM_T _ 0) in H; [discriminate|]. cbn -[sumf] in H.
        destruct (N.eqb flags 27) eqn:Ef; [|discriminate]. apply N.eqb_eq in Ef. subst flags. cbn. tauto.
      * cbn -[sumf] in H. destruct (N.eqb flags 11) eqn:Ef; [|discriminate]. apply N.eqb_eq in Ef. subst flags. cbn. tauto.
    + destruct (has boundary_du_dt flags); cbn [when obind] in H.
      * unfold calculateDuDt in H. cbn -[sumf Req_EM_T pow] in H. destruct (Req_EM_T _ 0) in H; [discriminate|]. cbn -[sumf] in H.
        destruct (N.eqb flags 19) eqn:Ef; [|discriminate]. apply N.eqb_eq in Ef. subst flags. cbn. tauto.
      * cbn -[sumf] in H. destruct (N.eqb flags 3) eqn:Ef; [|discriminate]. apply N.eqb_eq in Ef. subst flags. cbn. tauto.
  - apply orb_false_iff in E1. destruct E1 as [E1 E3]. apply orb_false_iff in E1. destruct E1 as [E1 E2]. rewrite E1, E3 in H. cbn [when obind] in H.
    cbn [fe_upToDate] in H. change (N.lor only_distributions boundary_rho) with 1%N in H.
    destruct (N.eqb flags 1) eqn:Ef; [|discriminate]. apply N.eqb_eq in Ef. subst flags. right; left; reflexivity.
Qed.

(** Two degrees of freedom with densities 1 and 3, velocities 0 and 1; the point in the middle. *)
Definition uneven (q d : nat) : R := match d with 0%nat => match q with 0%nat => 1 | _ => 0 end | _ => match q with 1%nat => 3 | _ => 0 end end.
Lemma uneven_throws z : fe_reinit (D2Q9 1) 1 1 2 uneven (fun _ => 1/2) (fun _ _ => 0) (fun _ _ _ => 0) 3 z = Throw.
Proof.
  unfold fe_reinit. cbn -[Rlt_dec sqrt pow sumf Req_EM_T calculateRho calculateU D2Q9]. unfold calculateRho, positive_data.
  cbn -[Rlt_dec sqrt pow sumf Req_EM_T calculateU D2Q9]. destruct (Rlt_dec 0 1); [|lra].
  cbn -[Rlt_dec sqrt pow sumf Req_EM_T calculateU D2Q9]. unfold calculateU, positive_data. cbn -[Rlt_dec sqrt pow sumf Req_EM_T D2Q9 nonzero_densities]. destruct (Rlt_dec 0 1); [|lra].
  destruct (nonzero_densities 2 _); cbn [negb obind]; [|reflexivity].
  match goal with |- context [Rlt_dec (sqrt ?k) ?b] => assert (Ek : k = (1/2) ^ 2) end.
  { cbn [D2Q9 st_D st_Q st_e sumf uneven]. lit15. field. }
  rewrite Ek, sqrt_pow2 by lra. destruct (Rlt_dec (1/2) (1 / 10 ^ 10)) as [X|_]; [|reflexivity].
  exfalso. replace (1 / 10 ^ 10) with (1 / 10000000000) in X by field. lra.
Qed.
