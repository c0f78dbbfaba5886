(** The numbers computed by ErrorStats. *)
From Coq Require Import NArith.
From Verif Require Import Prelude BigSum ModelRun ModelErrors SpecErrors.
Local Open Scope R_scope.

Lemma largest_nonneg : forall {A} (l : list A) g m, (forall x, 0 <= g x) -> largest l g m -> 0 <= m.
Proof. intros A l g m P [_ [[_ ->]|[x [_ ->]]]]; [lra|apply P]. Qed.

Lemma linfty_largest : forall l g, largest l (fun i => Rabs (g i)) (linfty l g).
Proof.
  intros l g. unfold linfty. induction l as [|a l [U E]].
  - split; [intros x []|left; split; reflexivity].
  - cbn [fold_right]. set (m := fold_right (fun n m => Rmax (Rabs (g n)) m) 0 l) in *. split.
    + intros x [<-|H]; [apply Rmax_l|]. eapply Rle_trans; [apply U; exact H|apply Rmax_r].
    + right. destruct (Rle_dec m (Rabs (g a))) as [L|L].
      * exists a. split; [left; reflexivity|apply Rmax_left; exact L].
      * apply Rnot_le_lt in L. destruct E as [[_ E]|[x [Hx E]]].
        { pose proof (Rabs_pos (g a)). lra. }
        exists x. split; [right; exact Hx|]. rewrite Rmax_right by lra. exact E.
Qed.

Lemma mpi_max_largest : forall ranks f (g : nat -> R), (forall x, 0 <= g x) ->
  (forall dofs, largest dofs g (f dofs)) -> largest (concat ranks) g (mpi_max ranks f).
Proof.
  intros ranks f g P H. unfold mpi_max. induction ranks as [|r ranks [U E]].
  - split; [intros x []|left; split; reflexivity].
  - cbn [fold_right concat]. set (m := fold_right (fun r m => Rmax (f r) m) 0 ranks) in *.
    pose proof (largest_nonneg _ _ _ P (H r)) as N.
    destruct (H r) as [Ur Er]. split.
    + intros x Hx. apply in_app_or in Hx. destruct Hx as [Hx|Hx].
      * eapply Rle_trans; [apply Ur; exact Hx|apply Rmax_l].
      * eapply Rle_trans; [apply U; exact Hx|apply Rmax_r].
    + destruct Er as [[-> Er]|[x [Hx Er]]].
      * destruct E as [[-> E]|[y [Hy E]]].
        { left. split; [reflexivity|]. rewrite Er, E. apply Rmax_left. lra. }
        right. exists y. split; [exact Hy|]. rewrite Er, E. apply Rmax_right. apply P.
      * right. destruct (Rle_dec m (f r)) as [L|L].
        { exists x. split; [apply in_or_app; left; exact Hx|]. rewrite Rmax_left by exact L. exact Er. }
        apply Rnot_le_lt in L. destruct E as [[_ E]|[y [Hy E]]]; [lra|].
        exists y. split; [apply in_or_app; right; exact Hy|]. rewrite Rmax_right by lra. exact E.
Qed.

Lemma largest_sqrt : forall {A} (l : list A) g m, (forall x, 0 <= g x) -> largest l g m -> largest l (fun x => sqrt (g x)) (sqrt m).
Proof.
  intros A l g m P H. pose proof (largest_nonneg _ _ _ P H) as N. destruct H as [U E]. split.
  - intros x Hx. apply sqrt_le_1; [apply P|exact N|apply U; exact Hx].
  - destruct E as [[-> ->]|[x [Hx ->]]]; [left; split; [reflexivity|apply sqrt_0]|right; exists x; auto].
Qed.
Lemma largest_ext : forall {A} (l : list A) g h m, (forall x, g x = h x) -> largest l g m -> largest l h m.
Proof.
  intros A l g h m E [U H]. split; [intros x Hx; rewrite <- E; apply U; exact Hx|].
  destruct H as [H|[x [Hx H]]]; [left; exact H|right; exists x; rewrite <- E; auto].
Qed.

Lemma norm_square_nonneg : forall dim u i, 0 <= norm_square dim u i.
Proof. intros. unfold norm_square. induction dim as [|d IH]; cbn [sumf]; [lra|]. pose proof (Rle_0_sqr (u d i)). unfold Rsqr in *. lra. Qed.

Lemma max_square_spec : forall dim u l m, 0 <= m ->
  m <= max_square dim u l m /\ (forall i, In i l -> norm_square dim u i <= max_square dim u l m) /\
  (max_square dim u l m = m \/ exists i, In i l /\ max_square dim u l m = norm_square dim u i).
Proof.
  intros dim u l. induction l as [|a l IH]; intros m Hm; cbn [max_square].
  - repeat split; [lra|intros i []|left; reflexivity].
  - set (m' := if Rlt_dec m (norm_square dim u a) then norm_square dim u a else m).
    assert (M : m <= m' /\ norm_square dim u a <= m') by (unfold m'; destruct (Rlt_dec m (norm_square dim u a)); lra).
    destruct (IH m' ltac:(lra)) as (A & B & C). repeat split.
    + lra.
    + intros i [<-|H]; [lra|apply B; exact H].
    + destruct C as [C|[i [Hi C]]]; [|right; exists i; split; [right; exact Hi|exact C]].
      rewrite C. unfold m'. destruct (Rlt_dec m (norm_square dim u a)); [right; exists a; split; [left; reflexivity|reflexivity]|left; reflexivity].
Qed.
Lemma max_square_largest : forall dim u l, largest l (norm_square dim u) (max_square dim u l 0).
Proof.
  intros dim u l. destruct (max_square_spec dim u l 0 (Rle_refl 0)) as (A & B & C). split; [exact B|].
  destruct l as [|a l]; [left; split; reflexivity|right].
  destruct C as [C|C]; [|exact C]. exists a. split; [left; reflexivity|].
  pose proof (B a (or_introl eq_refl)). pose proof (norm_square_nonneg dim u a). lra.
Qed.

Lemma maxVelocityNorm_largest : forall dim ranks u m, maxVelocityNorm dim ranks u = Ok m ->
  largest (concat ranks) (fun i => distance dim (fun j => u j i) (fun _ => 0)) m.
Proof.
  intros dim ranks u m H. unfold maxVelocityNorm in H. destruct (Nat.ltb 1 dim && Nat.ltb dim 4)%bool; [|discriminate].
  injection H as <-. apply (largest_ext _ (fun i => sqrt (norm_square dim u i))).
  - intros i. unfold distance, norm_square. f_equal. apply sumf_ext. intros; ring.
  - apply largest_sqrt; [apply norm_square_nonneg|].
    apply mpi_max_largest; [apply norm_square_nonneg|]. intros dofs. apply max_square_largest.
Qed.

Lemma sum_square_spec : forall dim u l s, sum_square dim u l s = s + fold_right (fun i r => norm_square dim u i + r) 0 l.
Proof. intros dim u l. induction l as [|a l IH]; intros s; cbn [sum_square fold_right]; [ring|]. rewrite IH. ring. Qed.
Lemma fold_plus_app : forall {A} (f : A -> R) a b,
  fold_right (fun q s => f q + s) 0 (a ++ b) = fold_right (fun q s => f q + s) 0 a + fold_right (fun q s => f q + s) 0 b.
Proof. intros A f a b. induction a as [|x a IH]; cbn [app fold_right]; [ring|]. rewrite IH. ring. Qed.
Lemma mpi_sum_concat : forall {A} (f : A -> R) ranks,
  mpi_sum ranks (fun l => fold_right (fun q s => f q + s) 0 l) = fold_right (fun q s => f q + s) 0 (concat ranks).
Proof.
  intros A f ranks. unfold mpi_sum. induction ranks as [|r ranks IH]; [reflexivity|].
  cbn [fold_right concat]. rewrite IH, fold_plus_app. reflexivity.
Qed.
Lemma mpi_sum_ext : forall {A} (l : list A) f g, (forall a, In a l -> f a = g a) -> mpi_sum l f = mpi_sum l g.
Proof.
  intros A l f g H. unfold mpi_sum. induction l as [|a l IH]; [reflexivity|]. cbn [fold_right].
  rewrite (H a) by (left; reflexivity). f_equal. apply IH. intros; apply H; right; assumption.
Qed.
Lemma mpi_sum_plus : forall {A} (l : list A) f g, mpi_sum l (fun a => f a + g a) = mpi_sum l f + mpi_sum l g.
Proof. intros A l f g. unfold mpi_sum. induction l as [|a l IH]; cbn [fold_right]; [ring|]. rewrite IH. ring. Qed.

Lemma velocity2Norm_sum : forall dim ranks u m, velocity2Norm dim ranks u = Ok m ->
  m = sqrt (fold_right (fun i s => (distance dim (fun j => u j i) (fun _ => 0)) ^ 2 + s) 0 (concat ranks)).
Proof.
  intros dim ranks u m H. unfold velocity2Norm in H. destruct (Nat.ltb 1 dim && Nat.ltb dim 4)%bool; [|discriminate].
  injection H as <-. f_equal.
  rewrite (mpi_sum_ext _ _ (fun l => fold_right (fun i r => norm_square dim u i + r) 0 l)) by (intros; rewrite sum_square_spec; ring).
  rewrite mpi_sum_concat. induction (concat ranks) as [|i l IH]; [reflexivity|]. cbn [fold_right]. rewrite IH. f_equal.
  unfold distance. rewrite pow2_sqrt.
  - unfold norm_square. apply sumf_ext. intros; ring.
  - replace (sumf dim (fun j => (u j i - 0) ^ 2)) with (norm_square dim u i); [apply norm_square_nonneg|].
    unfold norm_square. apply sumf_ext. intros; ring.
Qed.

Lemma sumsq_nonneg : forall n g, 0 <= sumf n (fun j => (g j) ^ 2).
Proof. intros n g. induction n as [|n IH]; cbn [sumf]; [lra|]. pose proof (pow2_ge_0 (g n)). lra. Qed.

Section Quadrature.
  Context {P : Type}.
  Variable diff : qpoint P -> R.
  Definition qsum (l : list (qpoint P)) : R := fold_right (fun q s => qp_w q * (diff q) ^ 2 + s) 0 l.
  Lemma qsum_nonneg : forall l, (forall q, In q l -> 0 <= qp_w q) -> 0 <= qsum l.
  Proof.
    intros l H. unfold qsum. induction l as [|q l IH]; cbn [fold_right]; [lra|].
    assert (0 <= qp_w q) by (apply H; left; reflexivity). pose proof (pow2_ge_0 (diff q)).
    assert (0 <= qp_w q * diff q ^ 2) by (apply Rmult_le_pos; assumption).
    specialize (IH (fun x Hx => H x (or_intror Hx))). lra.
  Qed.
  Lemma cell_sq : forall cl, (forall q, In q cl -> 0 <= qp_w q) -> cell_error cl diff * cell_error cl diff = qsum cl.
  Proof.
    intros cl H. unfold cell_error.
    replace (fold_right (fun q s => diff q * diff q * qp_w q + s) 0 cl) with (qsum cl).
    - apply sqrt_sqrt, qsum_nonneg; exact H.
    - unfold qsum. induction cl as [|q l IH]; [reflexivity|]. cbn [fold_right].
      rewrite IH by (intros; apply H; right; assumption). ring.
  Qed.
  Lemma local_sq : forall cells, (forall cl q, In cl cells -> In q cl -> 0 <= qp_w q) ->
    local_norm cells diff * local_norm cells diff = qsum (concat cells).
  Proof.
    intros cells H. unfold local_norm.
    assert (E : fold_right (fun cl s => cell_error cl diff * cell_error cl diff + s) 0 cells = qsum (concat cells)).
    { induction cells as [|cl cells IH]; [reflexivity|]. cbn [fold_right concat].
      rewrite IH by (intros cl' q A B; apply (H cl' q); [right; exact A|exact B]).
      rewrite cell_sq by (intros q A; apply (H cl q); [left; reflexivity|exact A]).
      unfold qsum. rewrite fold_plus_app. reflexivity. }
    rewrite E. apply sqrt_sqrt, qsum_nonneg. intros q Hq. apply in_concat in Hq. destruct Hq as (cl & A & B). apply (H cl q A B).
  Qed.
End Quadrature.

Lemma qsum_quadrature : forall {P} (diff : qpoint P -> R) (ranks : list (list (list (qpoint P)))),
  mpi_sum ranks (fun cells => qsum diff (concat cells)) = quadrature (concat ranks) (fun q => diff q ^ 2).
Proof.
  intros P diff ranks. unfold quadrature, mpi_sum, qsum. induction ranks as [|r ranks IH]; [reflexivity|].
  cbn [fold_right concat]. rewrite IH, concat_app, fold_plus_app. reflexivity.
Qed.
Lemma quadrature_plus : forall {P} (cells : list (list (qpoint P))) g h,
  quadrature cells (fun q => g q + h q) = quadrature cells g + quadrature cells h.
Proof.
  intros P cells g h. unfold quadrature. induction (concat cells) as [|q l IH]; cbn [fold_right]; [ring|]. rewrite IH. ring.
Qed.
Lemma quadrature_ext : forall {P} (cells : list (list (qpoint P))) g h, (forall q, g q = h q) -> quadrature cells g = quadrature cells h.
Proof.
  intros P cells g h H. unfold quadrature. induction (concat cells) as [|q l IH]; cbn [fold_right]; [reflexivity|]. rewrite IH, H. reflexivity.
Qed.

Section Stats.
  Context {P : Type}.
  Variable v : view P.
  Let t := vw_time v.
  Hypothesis weights : forall cells cl q, In cells (vw_cells v) -> In cl cells -> In q cl -> 0 <= qp_w q.

  Lemma l2_rank : forall diff, mpi_sum (vw_cells v) (fun cells => local_norm cells diff * local_norm cells diff)
    = quadrature (concat (vw_cells v)) (fun q => diff q ^ 2).
  Proof.
    intros diff. rewrite <- qsum_quadrature. apply mpi_sum_ext. intros cells Hc. apply local_sq.
    intros cl q A B. apply (weights cells cl q Hc A B).
  Qed.

  Lemma update_values : forall es, es_iteration es <> vw_iteration v -> vw_dim v = 2%nat \/ vw_dim v = 3%nat ->
    exists es', update es v = Ok es' /\ es_iteration es' = vw_iteration v /\ es_time es' = t /\
      largest (concat (vw_ranks v)) (fun i => Rabs (vw_num_rho v i - vw_ana_rho v t (vw_support v i))) (es_maxDensityError es') /\
      largest (concat (vw_ranks v)) (fun i => distance (vw_dim v) (fun j => vw_num_u v j i) (vw_ana_u v t (vw_support v i))) (es_maxVelocityError es') /\
      largest (concat (vw_ranks v)) (fun i => distance (vw_dim v) (vw_ana_u v t (vw_support v i)) (fun _ => 0)) (es_maxUAnalytic es') /\
      es_l2UAnalytic es' = sqrt (fold_right (fun i s => distance (vw_dim v) (vw_ana_u v t (vw_support v i)) (fun _ => 0) ^ 2 + s) 0 (concat (vw_ranks v))) /\
      es_l2DensityError es' = sqrt (quadrature (concat (vw_cells v)) (fun q => (qp_rho q - vw_ana_rho v t (qp_x q)) ^ 2)) /\
      es_l2VelocityError es' = sqrt (quadrature (concat (vw_cells v)) (fun q => distance (vw_dim v) (qp_u q) (vw_ana_u v t (qp_x q)) ^ 2)).
  Proof.
    intros es Hi Hd. unfold update. rewrite (proj2 (N.eqb_neq _ _) Hi).
    assert (D : (Nat.ltb 1 (vw_dim v) && Nat.ltb (vw_dim v) 4)%bool = true) by (destruct Hd as [-> | ->]; reflexivity).
    set (au := fun j i => vw_ana_u v (vw_time v) (vw_support v i) j).
    assert (E1 : exists m, maxVelocityNorm (vw_dim v) (vw_ranks v) au = Ok m) by (unfold maxVelocityNorm; rewrite D; eexists; reflexivity).
    assert (E2 : exists m, velocity2Norm (vw_dim v) (vw_ranks v) au = Ok m) by (unfold velocity2Norm; rewrite D; eexists; reflexivity).
    destruct E1 as [m1 E1]. destruct E2 as [m2 E2]. cbv zeta. rewrite E1. cbn [obind]. rewrite E2. cbn [obind].
    eexists. split; [reflexivity|]. cbn [es_iteration es_time es_maxDensityError es_maxVelocityError es_maxUAnalytic es_l2UAnalytic es_l2DensityError es_l2VelocityError].
    split; [reflexivity|split; [reflexivity|]].
    split; [|split; [|split; [|split; [|split]]]].
    - unfold linfty_mpi. apply (largest_ext _ (fun i => Rabs (vw_ana_rho v (vw_time v) (vw_support v i) - vw_num_rho v i))).
      + intros i. apply Rabs_minus_sym.
      + apply mpi_max_largest; [intros; apply Rabs_pos|]. intros dofs.
        apply (linfty_largest dofs (fun i => vw_ana_rho v (vw_time v) (vw_support v i) - vw_num_rho v i)).
    - unfold linfty_mpi.
      match goal with |- context [linfty _ ?g] => set (err := g) end.
      apply (largest_ext _ (fun i => Rabs (err i))).
      + intros i. unfold err. rewrite Rabs_pos_eq by apply sqrt_pos. unfold distance, au, t. f_equal.
        destruct Hd as [-> | ->]; cbn [Nat.eqb sumf]; ring.
      + apply mpi_max_largest; [intros; apply Rabs_pos|]. intros dofs. apply linfty_largest.
    - apply (maxVelocityNorm_largest _ _ _ _ E1).
    - rewrite (velocity2Norm_sum _ _ _ _ E2). reflexivity.
    - f_equal. rewrite l2_rank. reflexivity.
    - f_equal. rewrite !mpi_sum_plus, !l2_rank.
      assert (SP : forall q, distance (vw_dim v) (qp_u q) (vw_ana_u v t (qp_x q)) ^ 2 = sumf (vw_dim v) (fun j => (qp_u q j - vw_ana_u v t (qp_x q) j) ^ 2)).
      { intros q. unfold distance. apply pow2_sqrt.
        apply sumsq_nonneg. }
      rewrite (quadrature_ext _ _ _ SP). destruct Hd as [-> | ->]; cbn [Nat.eqb].
      + replace (mpi_sum (vw_cells v) (fun _ => 0)) with 0.
        * rewrite Rplus_0_r, <- quadrature_plus. apply quadrature_ext. intros q. cbn [sumf]. unfold t. ring.
        * unfold mpi_sum. induction (vw_cells v) as [|a l IH]; [reflexivity|]. cbn [fold_right]. rewrite <- IH by (intros; eapply weights; [right; eassumption|eassumption|eassumption]). ring.
      + rewrite l2_rank, <- !quadrature_plus. apply quadrature_ext. intros q. cbn [sumf]. unfold t. ring.
  Qed.
End Stats.

(** A second call in the same iteration changes nothing. *)
Lemma update_again : forall {P} es (v : view P) es', update es v = Ok es' -> forall v' : view P,
  vw_iteration v' = vw_iteration v -> update es' v' = Ok es'.
Proof.
  intros P es v es' H v' E. unfold update in H. destruct (N.eqb (es_iteration es) (vw_iteration v)) eqn:F.
  - injection H as <-. unfold update. rewrite E, F. reflexivity.
  - assert (G : es_iteration es' = vw_iteration v).
    { cbv zeta in H.
      destruct (maxVelocityNorm (vw_dim v) (vw_ranks v) _); cbn [obind] in H; try discriminate.
      destruct (velocity2Norm (vw_dim v) (vw_ranks v) _); cbn [obind] in H; try discriminate.
      injection H as <-. reflexivity. }
    unfold update. rewrite G, E, N.eqb_refl. reflexivity.
Qed.

(** The line below the header. *)
Lemma line_values : forall P (v : view P),
  (forall cells cl q, In cells (vw_cells v) -> In cl cells -> In q cl -> 0 <= qp_w q) ->
  forall es : stats, es_iteration es <> vw_iteration v -> vw_dim v = 2%nat \/ vw_dim v = 3%nat ->
  exists es' l, printNewLine es v = Ok (es', (vw_iteration v, l)) /\ length l = length (tl errors_header) /\
    (forall c x, In (c, x) (combine (tl errors_header) l) -> promised_error v c x) /\
    printNewLine es' v = Ok (es', (vw_iteration v, l)).
Proof.
  intros P v W es N D. destruct (update_values v W es N D) as (es' & E & Hi & Ht & Hmr & Hmu & Hma & _ & Hlr & Hlu).
  exists es'. unfold printNewLine. apply N.eqb_neq in N. rewrite N, E, Hi, N.eqb_refl. cbn [obind]. rewrite Hi.
  eexists. split; [reflexivity|]. split; [reflexivity|]. split; [|reflexivity].
  intros c x H. cbn [tl errors_header combine In] in H.
  destruct H as [H|[H|[H|[H|[H|[H|[]]]]]]]; injection H as <- <-; assumption.
Qed.
