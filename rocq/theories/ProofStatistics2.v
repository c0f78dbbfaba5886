(** Proofs about mean velocity, entropy, extreme pressures and the rows of results_table.txt. *)
From Coq Require Import NArith Permutation Psatz.
From Verif Require Import Prelude BigSum ModelErrors ModelStatistics SpecStatistics ProofStatistics.
Local Open Scope R_scope.

(** ** meanVelocityX *)
Lemma mean_sums n nq ranks ux :
  integrate n nq ranks (fun c q i => ux (fc_dof c i) * fc_JxW c q) =
  integral nq (concat ranks) (fun c _ => sumf n (fun i => ux (fc_dof c i))).
Proof.
  rewrite integrate_flat. apply suml_ext. intros c Hc. apply sumf_ext. intros q Hq. rewrite sumf_scal_r. reflexivity.
Qed.
Lemma mean_area n nq ranks : integrate n nq ranks (fun c q i => fc_JxW c q) = INR n * volume nq (concat ranks).
Proof.
  rewrite integrate_flat. unfold volume. rewrite <- integral_scal. apply suml_ext. intros c Hc. apply sumf_ext. intros q Hq.
  rewrite sumf_const. ring.
Qed.

Lemma mean_value n nq ranks ux : (0 < n)%nat -> volume nq (concat ranks) <> 0 ->
  meanVelocityX n nq ranks ux = Some (integral nq (concat ranks) (fun c _ => sumf n (fun i => ux (fc_dof c i))) / (INR n * volume nq (concat ranks))).
Proof.
  intros Hn Hv. unfold meanVelocityX. rewrite mean_sums, mean_area.
  assert (INR n <> 0) by (apply not_0_INR; lia).
  destruct (Req_EM_T (INR n * volume nq (concat ranks)) 0) as [E|_]; [|reflexivity].
  exfalso. apply Rmult_integral in E. tauto.
Qed.

Lemma mean_summary n nq ranks : let cells := concat ranks in
  (0 < n)%nat -> (0 < nq)%nat -> cells <> [] -> positive_weights nq cells ->
  (forall ux, exists m, meanVelocityX n nq ranks ux = Some m /\
     forall a b, (forall c i, In c cells -> (i < n)%nat -> a <= ux (fc_dof c i) <= b) -> a <= m <= b) /\
  (forall ux, (forall c i, In c cells -> (i < n)%nat -> sumf nq (fun q => fc_shape c i q * fc_JxW c q) = sumf nq (fc_JxW c) / INR n) ->
     meanVelocityX n nq ranks ux = Some (domain_mean nq cells (at_point n ux))).
Proof.
  cbv zeta. intros Hn Hq Hc W. set (cells := concat ranks) in *.
  assert (V : 0 < volume nq cells) by (apply volume_pos; assumption).
  assert (N : 0 < INR n) by (apply lt_0_INR; exact Hn).
  split.
  - intros ux. eexists. split; [apply mean_value; [exact Hn|apply Rgt_not_eq; exact V]|]. fold cells. intros a b B.
    assert (NV : 0 < INR n * volume nq cells) by (apply Rmult_lt_0_compat; assumption).
    assert (L : INR n * a * volume nq cells <= integral nq cells (fun c _ => sumf n (fun i => ux (fc_dof c i)))).
    { rewrite <- integral_const. apply integral_le; [exact W|]. intros c q Ic Iq. rewrite <- sumf_const. apply sumf_le. intros i Hi. apply B; assumption. }
    assert (U : integral nq cells (fun c _ => sumf n (fun i => ux (fc_dof c i))) <= INR n * b * volume nq cells).
    { rewrite <- integral_const. apply integral_le; [exact W|]. intros c q Ic Iq. rewrite <- sumf_const. apply sumf_le. intros i Hi. apply B; assumption. }
    split; apply Rmult_le_reg_r with (r := INR n * volume nq cells); try exact NV; unfold Rdiv; rewrite Rmult_assoc, Rinv_l by lra; lra.
  - intros ux S. rewrite mean_value; [|exact Hn|apply Rgt_not_eq; exact V]. fold cells. f_equal. unfold domain_mean.
    assert (E : integral nq cells (fun c _ => sumf n (fun i => ux (fc_dof c i))) = INR n * integral nq cells (at_point n ux)).
    { unfold integral. rewrite <- suml_scal. apply suml_ext. intros c Ic.
      unfold at_point. rewrite (sumf_scal nq (sumf n (fun i => ux (fc_dof c i))) (fc_JxW c)).
      rewrite (sumf_ext nq (fun q => sumf n (fun i => ux (fc_dof c i) * fc_shape c i q) * fc_JxW c q)
                 (fun q => sumf n (fun i => ux (fc_dof c i) * (fc_shape c i q * fc_JxW c q)))).
      2:{ intros q Iq. rewrite <- sumf_scal_r. apply sumf_ext. intros. ring. }
      rewrite sumf_swap.
      rewrite (sumf_ext n (fun i => sumf nq (fun q => ux (fc_dof c i) * (fc_shape c i q * fc_JxW c q)))
                 (fun i => ux (fc_dof c i) * (sumf nq (fc_JxW c) / INR n))).
      2:{ intros i Hi. rewrite sumf_scal, (S c i Ic Hi). reflexivity. }
      rewrite sumf_scal_r. field. lra. }
    rewrite E. field. lra.
Qed.

(** ** entropy *)
Lemma sum_opt_some n (g : nat -> option R) h : (forall i, (i < n)%nat -> g i = Some (h i)) -> sum_opt n g = Some (sumf n h).
Proof.
  induction n as [|n IH]; intros H; simpl; [reflexivity|]. rewrite IH by (intros; apply H; lia). rewrite H by lia. reflexivity.
Qed.
Lemma sum_opt_none n (g : nat -> option R) i : (i < n)%nat -> g i = None -> sum_opt n g = None.
Proof.
  induction n as [|n IH]; intros L H; [lia|]. simpl. destruct (Nat.eq_dec i n) as [->|D].
  - rewrite H. destruct (sum_opt n g); reflexivity.
  - rewrite IH by (try lia; exact H). reflexivity.
Qed.
Lemma sum_list_some {A} (l : list A) g h : (forall x, In x l -> g x = Some (h x)) -> sum_opt_list l g = Some (suml h l).
Proof.
  induction l as [|x l IH]; intros H; [reflexivity|].
  change (sum_opt_list (x :: l) g) with (match g x, sum_opt_list l g with Some a, Some b => Some (a + b) | _, _ => None end).
  rewrite (H x) by (simpl; auto). rewrite IH by (intros; apply H; simpl; auto). reflexivity.
Qed.
Lemma sum_list_none {A} (l : list A) g x : In x l -> g x = None -> sum_opt_list l g = None.
Proof.
  induction l as [|y l IH]; intros I H; [contradiction|].
  change (sum_opt_list (y :: l) g) with (match g y, sum_opt_list l g with Some a, Some b => Some (a + b) | _, _ => None end).
  destruct I as [->|I].
  - rewrite H. reflexivity.
  - rewrite IH by assumption. destruct (g y); reflexivity.
Qed.

Lemma entropy_positive n nq ranks Q w f :
  (forall c i j, In c (concat ranks) -> (i < n)%nat -> (j < Q)%nat -> 0 < f j (fc_dof c i) / w j) ->
  entropy n nq ranks Q w f =
    Some (integral nq (concat ranks) (fun c _ => sumf n (fun i => - sumf Q (fun j => f j (fc_dof c i) * ln (f j (fc_dof c i) / w j))))).
Proof.
  intros P. unfold entropy. unfold integral. rewrite <- suml_concat. apply sum_list_some. intros cells Ir.
  apply sum_list_some. intros c Ic. apply sum_opt_some. intros q Hq.
  assert (IC : In c (concat ranks)) by (apply in_concat; eauto).
  rewrite (sum_opt_some n _ (fun i => - sumf Q (fun j => f j (fc_dof c i) * ln (f j (fc_dof c i) / w j)) * fc_JxW c q)).
  - rewrite sumf_scal_r. reflexivity.
  - intros i Hi. rewrite (sum_opt_some Q _ (fun j => - (f j (fc_dof c i) * ln (f j (fc_dof c i) / w j) * fc_JxW c q))).
    + f_equal. rewrite sumf_opp, sumf_scal_r. ring.
    + intros j Hj. unfold entropy_term. destruct (Rlt_dec 0 (f j (fc_dof c i) / w j)) as [_|Nn]; [reflexivity|].
      exfalso. apply Nn. apply P; assumption.
Qed.

Lemma entropy_summary n nq ranks Q w : let cells := concat ranks in
  (forall F, (forall j, (j < Q)%nat -> 0 < F j /\ 0 < w j) ->
     entropy n nq ranks Q w (fun j _ => F j) = Some (INR n * (volume nq cells * - sumf Q (fun j => F j * ln (F j / w j))))) /\
  (forall f c i j, In c cells -> (0 < nq)%nat -> (i < n)%nat -> (j < Q)%nat -> 0 < w j -> f j (fc_dof c i) <= 0 ->
     entropy n nq ranks Q w f = None).
Proof.
  cbv zeta. split.
  - intros F P. rewrite entropy_positive.
    + f_equal. rewrite (integral_ext nq (concat ranks) _ (fun _ _ => INR n * - sumf Q (fun j => F j * ln (F j / w j)))).
      * rewrite integral_const. ring.
      * intros. rewrite sumf_const. reflexivity.
    + intros c i j _ _ Hj. destruct (P j Hj). apply Rdiv_lt_0_compat; assumption.
  - intros f c i j Ic Hq Hi Hj Hw Hf. apply in_concat in Ic. destruct Ic as [cells [Ir Ic]].
    unfold entropy. apply (sum_list_none _ _ cells Ir). apply (sum_list_none _ _ c Ic).
    apply (sum_opt_none _ _ 0%nat Hq). apply (sum_opt_none _ _ i Hi). apply (sum_opt_none _ _ j Hj).
    unfold entropy_term. destruct (Rlt_dec 0 (f j (fc_dof c i) / w j)) as [L|_]; [|reflexivity].
    exfalso. assert (f j (fc_dof c i) / w j <= 0); [|lra].
    unfold Rdiv. assert (0 < / w j) by (apply Rinv_0_lt_compat; exact Hw). nra.
Qed.

(** ** extreme pressures *)
Lemma fold_pick (pick : R -> R -> R) (le : R -> R -> Prop) (v : field) :
  (forall x, le x x) -> (forall x y z, le x y -> le y z -> le x z) ->
  (forall x y, pick x y = x \/ pick x y = y) -> (forall x y, le x (pick x y) /\ le y (pick x y)) ->
  forall l m, let r := fold_left (fun m k => pick m (v k)) l m in
  (r = m \/ exists i, In i l /\ r = v i) /\ le m r /\ forall i, In i l -> le (v i) r.
Proof.
  intros Rf Tr Or Up. induction l as [|k l IH]; intros m; cbn [fold_left]; cbv zeta.
  - split; [left; reflexivity|]. split; [apply Rf|intros i []].
  - destruct (IH (pick m (v k))) as [A [B C]]. cbv zeta in A, B, C. destruct (Up m (v k)) as [U1 U2]. split; [|split].
    + destruct A as [A|[i [Hi A]]].
      * rewrite A. destruct (Or m (v k)) as [E|E]; rewrite E; [left; reflexivity|right; exists k; simpl; auto].
      * right. exists i. simpl. auto.
    + eapply Tr; eassumption.
    + intros i [->|Hi]; [eapply Tr; eassumption|apply C; exact Hi].
Qed.

Lemma extreme_ok (pick : R -> R -> R) (le : R -> R -> Prop) (v : field) owned :
  (forall x, le x x) -> (forall x y z, le x y -> le y z -> le x z) ->
  (forall x y, pick x y = x \/ pick x y = y) -> (forall x y, le x (pick x y) /\ le y (pick x y)) ->
  concat owned <> [] -> exists r, vector_extreme pick owned v = Some r /\ (exists i, In i (concat owned) /\ r = v i) /\ forall i, In i (concat owned) -> le (v i) r.
Proof.
  intros Rf Tr Or Up Hn. unfold vector_extreme. destruct (concat owned) as [|k l] eqn:E; [congruence|].
  eexists. split; [reflexivity|]. destruct (fold_pick pick le v Rf Tr Or Up l (v k)) as [A [B C]]. cbv zeta in A, B, C.
  split.
  - destruct A as [A|[i [Hi A]]]; [exists k; simpl; auto|exists i; simpl; auto].
  - intros i [->|Hi]; auto.
Qed.

Lemma max_ok owned v : concat owned <> [] ->
  exists r, vector_extreme Rmax owned v = Some r /\ (exists i, In i (concat owned) /\ r = v i) /\ forall i, In i (concat owned) -> v i <= r.
Proof.
  apply (extreme_ok Rmax Rle).
  - intros; lra.
  - intros; lra.
  - intros x y. unfold Rmax. destruct (Rle_dec x y); auto.
  - intros x y. split; [apply Rmax_l|apply Rmax_r].
Qed.
Lemma min_ok owned v : concat owned <> [] ->
  exists r, vector_extreme Rmin owned v = Some r /\ (exists i, In i (concat owned) /\ r = v i) /\ forall i, In i (concat owned) -> r <= v i.
Proof.
  intros H. destruct (extreme_ok Rmin (fun a b => b <= a) v owned) as [r P]; auto.
  - intros; lra.
  - intros; lra.
  - intros x y. unfold Rmin. destruct (Rle_dec x y); auto.
  - intros x y. split; [apply Rmin_l|apply Rmin_r].
  - exists r. exact P.
Qed.

Lemma pressure_summary owned rho cs : concat owned <> [] ->
  let p i := (rho i - 1) * cs ^ 2 in
  exists pmax pmin, maximalPressure owned rho cs = Some (pmax, pmin) /\
    (exists i, In i (concat owned) /\ pmax = p i) /\ (exists i, In i (concat owned) /\ pmin = p i) /\
    forall i, In i (concat owned) -> pmin <= p i <= pmax.
Proof.
  intros H. cbv zeta. unfold maximalPressure.
  destruct (max_ok owned rho H) as [a [Ea [[ia [Ia Va]] Ua]]]. destruct (min_ok owned rho H) as [b [Eb [[ib [Ib Vb]] Ub]]].
  rewrite Ea, Eb. eexists. eexists. split; [reflexivity|].
  assert (S : 0 <= cs ^ 2) by apply pow2_ge_0.
  split; [exists ia; split; [exact Ia|rewrite Va; ring]|]. split; [exists ib; split; [exact Ib|rewrite Vb; ring]|].
  intros i Hi. specialize (Ua i Hi). specialize (Ub i Hi). split.
  - replace ((b - 1) * cs * cs) with ((b - 1) * cs ^ 2) by ring. apply Rmult_le_compat_r; [exact S|lra].
  - replace ((a - 1) * (cs * cs)) with ((a - 1) * cs ^ 2) by ring. apply Rmult_le_compat_r; [exact S|lra].
Qed.

(** ** rows of results_table.txt *)
Lemma update_row g s v : (st_dim g = 2 \/ st_dim g = 3)%nat -> concat (st_owned g) <> [] -> s_iteration s <> vi_iteration v ->
  exists s' row, stats_printNewLine g s v = Ok (s', row) /\ s_iteration s' = vi_iteration v /\ length row = length results_header /\
    (forall t x, In (t, x) (combine results_header row) -> promised g v t x) /\
    (forall v', v' = v -> stats_printNewLine g s' v' = Ok (s', row)).
Proof.
  intros D O I. destruct (pressure_summary (st_owned g) (vi_rho v) (st_sound g) O) as [pmax [pmin [EP [X [N B]]]]]. cbv zeta in X, N, B.
  assert (EM : exists m, maxVelocityNorm (st_dim g) (st_owned g) (vi_u v) = Ok m).
  { unfold maxVelocityNorm. destruct D as [->| ->]; cbn [Nat.ltb Nat.leb andb]; eexists; reflexivity. }
  destruct EM as [m EM].
  assert (IU : isUpToDate s v = false) by (unfold isUpToDate; apply N.eqb_neq; exact I).
  unfold stats_printNewLine. rewrite IU. unfold stats_update. rewrite IU, EM. cbn [obind]. rewrite EP. cbv zeta. cbn [obind].
  eexists. eexists. split; [reflexivity|]. cbn [s_iteration s_time s_maxU s_mass s_kinE s_enstrophy s_enstrophy_sq s_entropy s_maxP s_minP s_mean].
  split; [reflexivity|]. split; [reflexivity|]. split.
  - intros t x H. unfold results_header in H. cbn [combine In] in H.
    repeat (destruct H as [H|H]; [injection H as <- <-|]); try contradiction; cbn [promised].
    + reflexivity.
    + reflexivity.
    + exists m. split; [reflexivity|exact EM].
    + f_equal. apply integrate_nodal.
    + reflexivity.
    + reflexivity.
    + reflexivity.
    + exists pmax. split; [reflexivity|]. split; [exact X|]. intros i Hi. apply B. exact Hi.
    + exists pmin. split; [reflexivity|]. split; [exact N|]. intros i Hi. apply B. exact Hi.
    + reflexivity.
    + reflexivity.
    + reflexivity.
    + reflexivity.
  - intros v' ->. unfold isUpToDate. cbn [s_iteration]. rewrite N.eqb_refl. reflexivity.
Qed.

Lemma lines_from g : (st_dim g = 2 \/ st_dim g = 3)%nat -> concat (st_owned g) <> [] ->
  forall vs s, (forall v w, In v vs -> In w vs -> vi_iteration v = vi_iteration w -> v = w) ->
  (s_iteration s <> s_iteration stats_init -> exists v0 row, (forall v, In v vs -> vi_iteration v = vi_iteration v0 -> v = v0)
     /\ s_iteration s = vi_iteration v0 /\ length row = length results_header
     /\ (forall t x, In (t, x) (combine results_header row) -> promised g v0 t x) /\ stats_printNewLine g s v0 = Ok (s, row)) ->
  (forall v, In v vs -> vi_iteration v <> 1000000000037%N) ->
  exists rows, stats_lines g s vs = Ok rows /\
    Forall2 (fun v row => length row = length results_header /\ forall t x, In (t, x) (combine results_header row) -> promised g v t x) vs rows.
Proof.
  intros D O. induction vs as [|v vs IH]; intros s U Fr Ns.
  - exists []. split; [reflexivity|constructor].
  - assert (Ts : exists s' row, stats_printNewLine g s v = Ok (s', row) /\ length row = length results_header /\
      (forall t x, In (t, x) (combine results_header row) -> promised g v t x) /\
      s_iteration s' = vi_iteration v /\ stats_printNewLine g s' v = Ok (s', row)).
    { destruct (N.eq_dec (s_iteration s) (vi_iteration v)) as [E|E].
      - destruct Fr as [v0 [row [F1 [F2 [F3 [F4 F5]]]]]].
        { rewrite E. apply Ns. simpl. auto. }
        assert (v = v0) by (apply F1; [simpl; auto|congruence]). subst v0. exists s, row. auto.
      - destruct (update_row g s v D O E) as [s' [row [A [B [C [P Q]]]]]]. exists s', row. split; [exact A|]. split; [exact C|]. split; [exact P|].
        split; [exact B|]. apply Q. reflexivity. }
    destruct Ts as [s' [row [A [C [P [B Q]]]]]].
    destruct (IH s') as [rows [L F]].
    + intros a b Ha Hb. apply U; simpl; auto.
    + intros _. exists v, row. split; [intros w Hw Ew; apply U; simpl; auto|]. split; [exact B|]. split; [exact C|]. split; [exact P|exact Q].
    + intros w Hw. apply Ns. simpl. auto.
    + exists (row :: rows). cbn [stats_lines]. rewrite A. cbn [obind fst snd]. rewrite L. cbn [obind]. split; [reflexivity|].
      constructor; [split; [exact C|exact P]|exact F].
Qed.

Lemma lines_summary g vs : (st_dim g = 2 \/ st_dim g = 3)%nat -> concat (st_owned g) <> [] ->
  (forall v w, In v vs -> In w vs -> vi_iteration v = vi_iteration w -> v = w) ->
  (forall v, In v vs -> vi_iteration v <> 1000000000037%N) ->
  exists rows, stats_lines g stats_init vs = Ok rows /\
    Forall2 (fun v row => length row = length results_header /\ forall t x, In (t, x) (combine results_header row) -> promised g v t x) vs rows.
Proof.
  intros D O U Ns. apply lines_from; auto. intros H. exfalso. apply H. reflexivity.
Qed.

(** The number of the sentinel. *)
Lemma lines_sentinel : forall g v, vi_iteration v = 1000000000037%N -> stats_lines g stats_init [v] = UB.
Proof.
  intros g v E. cbn [stats_lines]. unfold stats_printNewLine, isUpToDate. rewrite E. reflexivity.
Qed.
