(** The coordinates and the plane averages. *)
From Coq Require Import Sorting.Sorted.
From Verif Require Import Prelude BigSum ModelForcing SpecForcing.
Local Open Scope R_scope.

Definition tol : R := 1/1000000.
Definition apart (P : R -> Prop) : Prop := forall a b, P a -> P b -> a = b \/ tol < Rabs (a - b).

Lemma tl_true a b : a + tol < b -> tolerant_less a b = true.
Proof. unfold tol. intros H. unfold tolerant_less. rewrite Rabs_left by lra. destruct (Rlt_dec _ _); [|lra]. destruct (Rlt_dec a b); [reflexivity|lra]. Qed.
Lemma tl_false a b : b <= a -> tolerant_less a b = false.
Proof. intros H. unfold tolerant_less. destruct (Rlt_dec _ _); [|reflexivity]. destruct (Rlt_dec a b); [lra|reflexivity]. Qed.

(** Both orders decide like < on the keys considered. *)
Definition decides (less : R -> R -> bool) (P : R -> Prop) : Prop := forall a b, P a -> P b -> (less a b = true <-> a < b).
Lemma tolerant_decides P : apart P -> decides tolerant_less P.
Proof.
  intros HP a b Ha Hb. split.
  - intros H. unfold tolerant_less in H. destruct (Rlt_dec _ _); [|discriminate]. destruct (Rlt_dec a b); [assumption|discriminate].
  - intros H. apply tl_true. destruct (HP a b Ha Hb) as [E|E]; [lra|]. rewrite Rabs_left in E by lra. unfold tol in *. lra.
Qed.
Lemma exact_decides P : decides exact_less P.
Proof. intros a b _ _. unfold exact_less. destruct (Rlt_dec a b); split; intros; (assumption || reflexivity || discriminate || contradiction). Qed.
Lemma decides_false less P a b : decides less P -> P a -> P b -> (less a b = false <-> b <= a).
Proof.
  intros D Ha Hb. specialize (D a b Ha Hb). destruct (less a b); split; intros H; try discriminate; try reflexivity.
  - pose proof (proj1 D eq_refl). lra.
  - apply Rnot_lt_le. intros X. apply (proj2 D) in X. discriminate.
Qed.

Definition key_lt {A} (a b : R * A) : Prop := fst a < fst b.
Section Put.
  Context {A : Type}.
  Variables (less : R -> R -> bool) (P : R -> Prop).
  Hypothesis HD : decides less P.

  Lemma put_good k (v : A) l : P k -> Forall (fun a => P (fst a)) l -> StronglySorted key_lt l ->
    Forall (fun a => P (fst a)) (put less k v l) /\ StronglySorted key_lt (put less k v l) /\ forall y, In y (map fst (put less k v l)) <-> y = k \/ In y (map fst l).
  Proof.
    intros Hk. induction l as [|[k' v'] r IH]; intros HF HS.
    - cbn. split; [repeat constructor; exact Hk|]. split; [repeat constructor|]. intros y. split; intros [H|[]]; left; congruence.
    - inversion HF as [|? ? P' HF']; subst. inversion HS as [|? ? HS' Hall]; subst. cbn [fst] in P'. cbn [put].
      destruct (less k' k) eqn:E1.
      + apply (proj1 (HD _ _ P' Hk)) in E1. destruct (IH HF' HS') as (A1 & A2 & A3). split; [constructor; assumption|]. split.
        * constructor; [exact A2|]. rewrite Forall_forall. intros a Ha. assert (X : In (fst a) (map fst (put less k v r))) by (apply in_map; exact Ha).
          apply A3 in X. unfold key_lt. cbn [fst]. destruct X as [->|X]; [exact E1|]. apply in_map_iff in X. destruct X as (b & <- & Hb).
          rewrite Forall_forall in Hall. exact (Hall b Hb).
        * intros y. cbn [map fst In]. rewrite A3. tauto.
      + apply (proj1 (decides_false _ _ _ _ HD P' Hk)) in E1. destruct (less k k') eqn:E2.
        * apply (proj1 (HD _ _ Hk P')) in E2. split; [constructor; assumption|]. split.
          -- constructor; [exact HS|]. constructor; [exact E2|]. rewrite Forall_forall in *. intros a Ha. specialize (Hall a Ha). unfold key_lt in *. cbn [fst] in *. lra.
          -- intros y. cbn [map fst In]. split; [intros [->|H]; [left; reflexivity|right; exact H]|intros [->|H]; [left; reflexivity|right; exact H]].
        * apply (proj1 (decides_false _ _ _ _ HD Hk P')) in E2. assert (k = k') by lra. subst k'. split; [exact HF|]. split; [exact HS|].
          intros y. cbn [map fst In]. split; [tauto|]. intros [->|H]; [left; reflexivity|exact H].
  Qed.

  Lemma put_last k (v : A) l : P k -> Forall (fun a => P (fst a)) l -> Forall (fun a => fst a < k) l -> put less k v l = l ++ [(k, v)].
  Proof.
    intros Hk. induction l as [|[k' v'] r IH]; intros HF HL; [reflexivity|].
    inversion HF; subst. inversion HL; subst. cbn [fst] in *. cbn [put app]. rewrite (proj2 (HD k' k ltac:(assumption) Hk) ltac:(assumption)). rewrite IH by assumption. reflexivity.
  Qed.
End Put.

Lemma sorted_keys {A} (l : list (R * A)) : StronglySorted key_lt l -> StronglySorted Rlt (map fst l).
Proof.
  induction 1 as [|a l HS IH HF]; [constructor|]. cbn. constructor; [exact IH|]. rewrite Forall_forall in *. intros y Hy. apply in_map_iff in Hy. destruct Hy as (b & <- & Hb). exact (HF b Hb).
Qed.

Lemma set_of_good less P ys : decides less P -> Forall P ys -> StronglySorted Rlt (set_of less ys) /\ forall y, In y (set_of less ys) <-> In y ys.
Proof.
  intros HD HP. unfold set_of.
  assert (G : forall ys l, Forall P ys -> Forall (fun a : R * unit => P (fst a)) l -> StronglySorted key_lt l ->
    StronglySorted key_lt (fold_left (fun l y => put less y tt l) ys l) /\
    forall y, In y (map fst (fold_left (fun l y => put less y tt l) ys l)) <-> In y ys \/ In y (map fst l)).
  { clear ys HP. induction ys as [|y ys IH]; intros l HP HF HS; cbn [fold_left]; [split; [exact HS|intros; cbn; tauto]|].
    inversion HP; subst. destruct (put_good less P HD y tt l) as (A1 & A2 & A3); try assumption.
    destruct (IH (put less y tt l)) as [B1 B2]; try assumption. split; [exact B1|]. intros z. rewrite B2, A3. cbn [In]. intuition congruence. }
  destruct (G ys [] HP (Forall_nil _) (SSorted_nil _)) as [G1 G2]. split; [apply sorted_keys; exact G1|]. intros y. rewrite G2. cbn. tauto.
Qed.

(** The map gives every coordinate its position. *)
Lemma index_map_good ys P : apart P -> Forall P ys -> StronglySorted Rlt ys -> index_map ys = combine ys (seq 0 (length ys)).
Proof.
  intros HA HP HS. unfold index_map.
  assert (G : forall ys s l, Forall P ys -> StronglySorted Rlt ys -> Forall (fun a : R * nat => P (fst a)) l -> (forall a y, In a l -> In y ys -> fst a < y) ->
    snd (fold_left (fun il y => (S (fst il), put tolerant_less y (fst il) (snd il))) ys (s, l)) = l ++ combine ys (seq s (length ys))).
  { clear ys HP HS. induction ys as [|y ys IH]; intros s l HP HS HF HL; cbn [fold_left length seq combine]; [rewrite app_nil_r; reflexivity|].
    inversion HP; subst. inversion HS as [|? ? HS' Hall]; subst. cbn [fst snd].
    rewrite (put_last tolerant_less P (tolerant_decides P HA) y s l); [|assumption|assumption|rewrite Forall_forall; intros a Ha; apply HL; [exact Ha|left; reflexivity]].
    rewrite IH; [rewrite <- app_assoc; reflexivity|assumption|assumption| |].
    - apply Forall_app. split; [exact HF|]. constructor; [assumption|constructor].
    - intros a z Ha Hz. apply in_app_or in Ha. destruct Ha as [Ha|[<-|[]]]; [apply HL; [exact Ha|right; exact Hz]|]. cbn [fst]. rewrite Forall_forall in Hall. exact (Hall z Hz). }
  rewrite (G ys O [] HP HS (Forall_nil _)); [reflexivity|]. intros a y [].
Qed.

Lemma find_position P ys s i y : apart P -> Forall P ys -> StronglySorted Rlt ys -> nth_error ys i = Some y -> find_key y (combine ys (seq s (length ys))) = Some (s + i)%nat.
Proof.
  intros HA. revert s i. induction ys as [|k ys IH]; intros s i HP HS E; [destruct i; discriminate|].
  inversion HP; subst. inversion HS as [|? ? HS' Hall]; subst. cbn [length seq combine find_key]. destruct i as [|i].
  - cbn in E. injection E as <-. rewrite !tl_false by lra. f_equal. lia.
  - cbn in E. assert (Hy : In y ys) by (apply nth_error_In with i; exact E). rewrite Forall_forall in Hall. specialize (Hall y Hy).
    rewrite (proj2 (tolerant_decides P HA k y ltac:(assumption) (proj1 (Forall_forall P ys) ltac:(assumption) y Hy)) Hall).
    rewrite (IH (S s) i ltac:(assumption) HS' E). f_equal. lia.
Qed.

Lemma sorted_nodup ys : StronglySorted Rlt ys -> NoDup ys.
Proof.
  induction 1 as [|y ys HS IH HF]; constructor; [|exact IH]. intros X. rewrite Forall_forall in HF. specialize (HF y X). lra.
Qed.

Lemma windows_trapezoidal g ys : StronglySorted Rlt ys -> windows ys (map g ys) = trapezoidal g ys.
Proof.
  induction 1 as [|y0 ys HS IH HF]; [reflexivity|]. destruct ys as [|y1 r]; [reflexivity|].
  cbn [map windows trapezoidal] in *. rewrite IH. inversion HF; subst. rewrite Rabs_right by lra. field.
Qed.

Section Measure.
  Variable ps : list (list visit).
  Hypothesis Hps : ps <> [].
  Hypothesis Hne : forall p, In p ps -> p <> [].
  Hypothesis Hsep : separated_planes (concat ps).
  Let P y := exists v, In v (concat ps) /\ vi_y v = y.

  Lemma P_apart : apart P.
  Proof. intros a b (v & Hv & <-) (w & Hw & <-). apply Hsep; assumption. Qed.

  Lemma coordinates : exists ys, updateYValues ps = Ok ys /\ StronglySorted Rlt ys /\ (forall y, In y ys <-> P y) /\ ys <> [].
  Proof.
    unfold updateYValues. set (sets := map (fun p => set_of tolerant_less (map vi_y p)) ps).
    assert (HS : forall s, In s sets -> exists p, In p ps /\ forall y, In y s <-> exists v, In v p /\ vi_y v = y).
    { intros s Hs. apply in_map_iff in Hs. destruct Hs as (p & <- & Hp). exists p. split; [exact Hp|].
      assert (F : Forall P (map vi_y p)).
      { rewrite Forall_forall. intros y Hy. apply in_map_iff in Hy. destruct Hy as (v & E & Hv). exists v. split; [apply in_concat; exists p; split; assumption|exact E]. }
      intros y. rewrite (proj2 (set_of_good _ P _ (tolerant_decides P P_apart) F)), in_map_iff. split; intros (v & X & Y); exists v; split; assumption. }
    assert (E0 : existsb (fun s : list R => match s with [] => true | _ => false end) sets = false).
    { apply not_true_is_false. rewrite existsb_exists. intros (s & Hs & X). destruct (HS s Hs) as (p & Hp & C). destruct s; [|discriminate].
      destruct p as [|v p]; [exact (Hne [] Hp eq_refl)|]. apply (proj2 (C (vi_y v))). exists v. split; [left; reflexivity|reflexivity]. }
    cbv zeta. rewrite E0. cbn [andb]. eexists. split; [reflexivity|].
    assert (Q : forall y, In y (concat sets) <-> P y).
    { intros y. rewrite in_concat. split.
      - intros (s & Hs & Hy). destruct (HS s Hs) as (p & Hp & C). apply C in Hy. destruct Hy as (v & Hv & E). exists v. split; [apply in_concat; exists p; split; assumption|exact E].
      - intros (v & Hv & E). apply in_concat in Hv. destruct Hv as (p & Hp & Hv).
        assert (F : Forall P (map vi_y p)).
        { rewrite Forall_forall. intros z Hz. apply in_map_iff in Hz. destruct Hz as (w & E' & Hw). exists w. split; [apply in_concat; exists p; split; assumption|exact E']. }
        exists (set_of tolerant_less (map vi_y p)). split; [apply in_map_iff; exists p; split; [reflexivity|exact Hp]|].
        apply (proj2 (set_of_good _ P _ (tolerant_decides P P_apart) F)). apply in_map_iff. exists v. split; assumption. }
    assert (F : Forall P (concat sets)) by (rewrite Forall_forall; intros y Hy; apply Q; exact Hy).
    destruct (set_of_good exact_less P (concat sets) (exact_decides P) F) as [G1 G2]. split; [exact G1|]. split; [intros y; rewrite G2; apply Q|].
    intros E. destruct ps as [|p rest]; [contradiction|]. destruct p as [|v p]; [exact (Hne [] (or_introl eq_refl) eq_refl)|].
    assert (X : In (vi_y v) (set_of exact_less (concat sets))) by (apply G2, Q; exists v; split; [left; reflexivity|reflexivity]). rewrite E in X. exact X.
  Qed.

  Lemma measured : exists ys, StronglySorted Rlt ys /\ (forall y, In y ys <-> exists v, In v (concat ps) /\ vi_y v = y) /\
    calculateRhoU ps = Ok (trapezoidal (plane_mean (concat ps) (fun v => vi_rho v * vi_u v)) ys / 2, trapezoidal (plane_mean (concat ps) vi_rho) ys / 2).
  Proof.
    destruct coordinates as (ys & E & HS & Hin & Hys). exists ys. split; [exact HS|]. split; [exact Hin|].
    assert (HP : Forall P ys) by (rewrite Forall_forall; intros y Hy; apply Hin; exact Hy).
    unfold calculateRhoU. rewrite E. cbn [obind]. cbv zeta. rewrite (index_map_good ys P P_apart HP HS).
    set (m := combine ys (seq 0 (length ys))). set (vs := concat ps) in *.
    assert (Hfind : forall v, In v vs -> exists i, find_key (vi_y v) m = Some i /\ nth_error ys i = Some (vi_y v)).
    { intros v Hv. assert (In (vi_y v) ys) as X by (apply Hin; exists v; split; [exact Hv|reflexivity]).
      apply In_nth_error in X. destruct X as [i X]. exists i. split; [|exact X]. exact (find_position P ys 0 i (vi_y v) P_apart HP HS X). }
    assert (E0 : existsb (fun v => match find_key (vi_y v) m with None => true | Some _ => false end) vs = false).
    { apply not_true_is_false. rewrite existsb_exists. intros (v & Hv & X). destruct (Hfind v Hv) as (i & Ei & _). rewrite Ei in X. discriminate. }
    rewrite E0.
    assert (Hpl : forall i y, nth_error ys i = Some y -> plane_visits m i vs = plane vs y).
    { intros i y Ei. unfold plane_visits, plane. apply filter_ext_in. intros v Hv. destruct (Hfind v Hv) as (j & Ej & Nj). rewrite Ej.
      destruct (Req_EM_T (vi_y v) y) as [Q|Q].
      - apply Nat.eqb_eq. apply (proj1 (NoDup_nth_error ys) (sorted_nodup ys HS)); [apply nth_error_Some; congruence|congruence].
      - apply Nat.eqb_neq. intros ->. apply Q. congruence. }
    assert (Hav : forall q i y, nth_error ys i = Some y -> average m vs q i = Ok (plane_mean vs q y)).
    { intros q i y Ei. unfold average. rewrite (Hpl i y Ei). unfold plane_mean.
      assert (Z : forall l, fold_right (fun v s => q v + s) 0 l = suml q l) by (induction l as [|a l IHl]; cbn; [reflexivity|rewrite IHl; reflexivity]).
      rewrite Z. assert (Hy : In y ys) by (apply nth_error_In with i; exact Ei). apply Hin in Hy. destruct Hy as (v & Hv & Ev).
      assert (X : In v (plane vs y)) by (apply filter_In; split; [exact Hv|]; destruct (Req_EM_T (vi_y v) y); [reflexivity|contradiction]).
      destruct (plane vs y); [destruct X|reflexivity]. }
    assert (Havs : forall q, averages m vs q (seq 0 (length ys)) = Ok (map (plane_mean vs q) ys)).
    { intros q. assert (G : forall l s, (forall i y, nth_error l i = Some y -> nth_error ys (s + i) = Some y) -> averages m vs q (seq s (length l)) = Ok (map (plane_mean vs q) l)).
      { induction l as [|y l IH]; intros s H; [reflexivity|]. cbn [length seq averages map]. rewrite (Hav q s y); [|rewrite <- (Nat.add_0_r s); apply H; reflexivity]. cbn [obind].
        rewrite (IH (S s)); [reflexivity|]. intros i z Ei. replace (S s + i)%nat with (s + S i)%nat by lia. apply H. exact Ei. }
      apply G. intros i y Ei. exact Ei. }
    rewrite !Havs. cbn [obind]. rewrite !windows_trapezoidal by exact HS. destruct ys; [contradiction|reflexivity].
  Qed.
End Measure.

(** Linear profiles are integrated exactly. *)
Lemma plane_mean_const vs q y c : (exists v, In v vs /\ vi_y v = y) -> (forall v, In v vs -> vi_y v = y -> q v = c) -> plane_mean vs q y = c.
Proof.
  intros (v & Hv & Ev) H. unfold plane_mean.
  assert (X : In v (plane vs y)) by (apply filter_In; split; [exact Hv|]; destruct (Req_EM_T (vi_y v) y); [reflexivity|contradiction]).
  assert (E : suml q (plane vs y) = INR (length (plane vs y)) * c).
  { assert (G : forall l, incl l (plane vs y) -> suml q l = INR (length l) * c).
    { induction l as [|a l IH]; intros Hi; [cbn; ring|]. cbn [suml]. change (length (a :: l)) with (S (length l)). rewrite S_INR, IH by (intros z Hz; apply Hi; right; exact Hz).
      assert (Ha : In a (plane vs y)) by (apply Hi; left; reflexivity). apply filter_In in Ha. destruct Ha as [Ha Hb]. destruct (Req_EM_T (vi_y a) y); [|discriminate].
      rewrite (H a Ha) by assumption. ring. }
    apply G. intros a Ha. exact Ha. }
  rewrite E. field. apply not_0_INR. destruct (plane vs y); [destruct X|discriminate].
Qed.
Lemma trapezoidal_linear g a b y0 ys : (forall y, In y (y0 :: ys) -> g y = a + b * y) ->
  trapezoidal g (y0 :: ys) = (last (y0 :: ys) 0 - y0) * (a + b * (y0 + last (y0 :: ys) 0) / 2).
Proof.
  revert y0. induction ys as [|y1 ys IH]; intros y0 H; [cbn; ring|].
  change (trapezoidal g (y0 :: y1 :: ys)) with ((y1 - y0) * (g y0 + g y1) / 2 + trapezoidal g (y1 :: ys)).
  rewrite IH by (intros y Hy; apply H; right; exact Hy). rewrite (H y0), (H y1) by (cbn; auto).
  change (last (y0 :: y1 :: ys) 0) with (last (y1 :: ys) 0). field.
Qed.
Lemma sorted_first_last y0 ys y : StronglySorted Rlt (y0 :: ys) -> In y (y0 :: ys) -> y0 <= y <= last (y0 :: ys) 0.
Proof.
  revert y0 y. induction ys as [|y1 ys IH]; intros y0 y HS Hy; [destruct Hy as [<-|[]]; cbn; lra|].
  inversion HS as [|? ? HS' HF]; subst. inversion HF as [|? ? L HF']; subst. change (last (y0 :: y1 :: ys) 0) with (last (y1 :: ys) 0).
  destruct Hy as [<-|Hy]; [destruct (IH y1 y1 HS' (or_introl eq_refl)); lra|destruct (IH y1 y HS' Hy); lra].
Qed.

Lemma linear_profile ps lo hi a b : ps <> [] -> (forall p, In p ps -> p <> []) -> separated_planes (concat ps) ->
  (forall v, In v (concat ps) -> lo <= vi_y v <= hi /\ vi_rho v = 1 /\ vi_u v = a + b * vi_y v) ->
  (exists v, In v (concat ps) /\ vi_y v = lo) -> (exists v, In v (concat ps) /\ vi_y v = hi) ->
  calculateRhoU ps = Ok ((hi - lo) / 2 * (a + b * (lo + hi) / 2), (hi - lo) / 2).
Proof.
  intros Hps Hne Hsep Hv Hlo Hhi. destruct (measured ps Hps Hne Hsep) as (ys & HS & Hin & E). rewrite E.
  assert (Ilo := proj2 (Hin lo) Hlo). assert (Ihi := proj2 (Hin hi) Hhi). destruct ys as [|y0 ys]; [destruct Ilo|].
  assert (Hb : forall y, In y (y0 :: ys) -> lo <= y <= hi) by (intros y Hy; apply Hin in Hy; destruct Hy as (v & X & <-); apply Hv; exact X).
  assert (L0 : y0 = lo) by (destruct (sorted_first_last y0 ys lo HS Ilo); destruct (Hb y0 (or_introl eq_refl)); lra).
  assert (Il : In (last (y0 :: ys) 0) (y0 :: ys)) by (destruct (exists_last (l := y0 :: ys) ltac:(discriminate)) as (l' & x & El); rewrite El, last_last; apply in_or_app; right; left; reflexivity).
  assert (L1 : last (y0 :: ys) 0 = hi) by (destruct (sorted_first_last y0 ys hi HS Ihi); destruct (Hb _ Il); lra).
  rewrite (trapezoidal_linear _ a b), (trapezoidal_linear _ 1 0).
  - rewrite L1, L0. f_equal. f_equal; field.
  - intros y Hy. rewrite (plane_mean_const _ _ y 1); [ring|apply Hin; exact Hy|]. intros v X _. apply (Hv v X).
  - intros y Hy. apply plane_mean_const; [apply Hin; exact Hy|]. intros v X Y. destruct (Hv v X) as (_ & R1 & R2). rewrite R1, R2, Y. ring.
Qed.
