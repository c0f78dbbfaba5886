(** AdvectionBenchmark: analytic solution and time loop. *)
From Verif Require Import Prelude ModelBenchmarks SpecBenchmarks ProofDeriv.
Local Open Scope R_scope.

Lemma profile_period : forall s, periodic 1 (adv_profile s).
Proof.
  intros s x. unfold adv_profile. cbv zeta.
  replace (8 * (PI / 4) * (x + 1) * 1) with (8 * (PI / 4) * x * 1 + 2 * INR 1 * PI) by (simpl; field).
  rewrite sin_period. reflexivity.
Qed.
Lemma profile_shift : forall s n x, adv_profile s (x + INR n) = adv_profile s x.
Proof.
  intros s n x. induction n as [|n IH]; [simpl; f_equal; ring|].
  rewrite S_INR, <- Rplus_assoc, profile_period. exact IH.
Qed.

Lemma up_done : forall fuel x y, up_loop fuel x = Some y -> exists n, y = x + INR n.
Proof.
  induction fuel as [|k IH]; intros x y; cbn [up_loop]; destruct (Rlt_dec x 0); intros H; try discriminate.
  - exists O. injection H as <-. simpl. ring.
  - destruct (IH _ _ H) as [n ->]. exists (S n). rewrite S_INR. ring.
  - exists O. injection H as <-. simpl. ring.
Qed.
Lemma down_done : forall fuel x y, down_loop fuel x = Some y -> exists n, x = y + INR n.
Proof.
  induction fuel as [|k IH]; intros x y; cbn [down_loop]; destruct (Rlt_dec 1 x); intros H; try discriminate.
  - exists O. injection H as <-. simpl. ring.
  - destruct (IH _ _ H) as [n E]. exists (S n). rewrite S_INR. lra.
  - exists O. injection H as <-. simpl. ring.
Qed.
Lemma up_ends : forall n fuel x, (n <= fuel)%nat -> - INR n <= x -> exists y, up_loop fuel x = Some y /\ x <= y /\ (x < 0 -> y < 1).
Proof.
  induction n as [|n IH]; intros fuel x Hf Hx.
  - simpl in Hx. exists x. destruct fuel; cbn [up_loop]; destruct (Rlt_dec x 0); try lra; repeat split; lra.
  - destruct fuel as [|k]; [lia|]. cbn [up_loop]. destruct (Rlt_dec x 0) as [N|N].
    + rewrite S_INR in Hx. destruct (IH k (x + 1) ltac:(lia) ltac:(lra)) as (y & E & A & B).
      exists y. split; [exact E|split; [lra|]]. intros _.
      destruct (Rlt_dec (x + 1) 0) as [M|M]; [apply B; exact M|].
      destruct k; cbn [up_loop] in E; destruct (Rlt_dec (x + 1) 0); try lra; injection E as <-; lra.
    + exists x. repeat split; lra.
Qed.
Lemma down_ends : forall n fuel x, (n <= fuel)%nat -> x <= INR n + 1 -> exists y, down_loop fuel x = Some y.
Proof.
  induction n as [|n IH]; intros fuel x Hf Hx.
  - simpl in Hx. exists x. destruct fuel; cbn [down_loop]; destruct (Rlt_dec 1 x); try lra; reflexivity.
  - destruct fuel as [|k]; [lia|]. cbn [down_loop]. destruct (Rlt_dec 1 x) as [N|N].
    + rewrite S_INR in Hx. apply (IH k (x - 1)); [lia|lra].
    + exists x. reflexivity.
Qed.
Lemma nat_above : forall x, exists n, x <= INR n.
Proof.
  intros x. destruct (Rle_lt_dec x 0) as [H|H]; [exists O; exact H|].
  destruct (archimed x) as [A _]. exists (Z.to_nat (up x)). rewrite INR_IZR_INZ, Z2Nat.id; [lra|].
  apply le_IZR. lra.
Qed.

Lemma analytic_value : forall fuel time x s a, adv_analytic fuel time x s = Some a -> a = adv_profile s (x - time).
Proof.
  intros fuel time x s a H. unfold adv_analytic in H.
  destruct (up_loop fuel (x - time)) as [x1|] eqn:E1; [|discriminate].
  destruct (down_loop fuel x1) as [x2|] eqn:E2; [|discriminate].
  destruct (up_done _ _ _ E1) as [n ->]. destruct (down_done _ _ _ E2) as [m F].
  injection H as <-. rewrite <- (profile_shift s n (x - time)), F, profile_shift. reflexivity.
Qed.
Lemma analytic_ends : forall time x, exists n, forall fuel s, (n <= fuel)%nat ->
  adv_analytic fuel time x s = Some (adv_profile s (x - time)).
Proof.
  intros time x. destruct (nat_above (- (x - time))) as [n1 H1]. destruct (nat_above (Rmax (x - time) 1)) as [n2 H2].
  exists (n1 + n2)%nat. intros fuel s Hf.
  destruct (up_ends n1 fuel (x - time) ltac:(lia) ltac:(lra)) as (y & E & A & B).
  assert (Hy : y <= INR n2 + 1).
  { pose proof (Rmax_l (x - time) 1). pose proof (Rmax_r (x - time) 1).
    destruct (Rlt_dec (x - time) 0) as [N|N]; [specialize (B N); lra|].
    destruct fuel; cbn [up_loop] in E; destruct (Rlt_dec (x - time) 0); try lra; injection E as <-; lra. }
  destruct (down_ends n2 fuel y ltac:(lia) Hy) as (z & F).
  assert (G : adv_analytic fuel time x s = Some (adv_profile s z)) by (unfold adv_analytic; rewrite E, F; reflexivity).
  rewrite G. f_equal. apply (analytic_value fuel time x s). exact G.
Qed.

(** ** The profile solves the advection equation with speed 1 *)
Lemma sign_sq : forall h, sign h * Rabs h ^ 2 = h * Rabs h.
Proof.
  intros h. unfold sign, Rabs. destruct (Rcase_abs h); destruct (Rlt_dec 0 h); destruct (Rlt_dec h 0); try lra; simpl; try ring.
  assert (h = 0) by lra. subst. ring.
Qed.
Lemma dl_habs : forall h, derivable_pt_lim (fun s => s * Rabs s) h (2 * Rabs h).
Proof.
  intros h. destruct (Rtotal_order h 0) as [N|[->|P]].
  - intros eps He.
    destruct (dl_eq (fun s => - (s * s)) h _ (2 * Rabs h) ltac:(dl) ltac:(cbv beta; rewrite Rabs_left; lra) eps He) as [d Hd].
    assert (Hm : 0 < Rmin d (- h)) by (apply Rmin_pos; [apply cond_pos|lra]).
    exists (mkposreal _ Hm). intros k K0 K1. cbn [pos] in K1.
    pose proof (Rmin_l d (- h)). pose proof (Rmin_r d (- h)).
    specialize (Hd k K0 ltac:(lra)). cbv beta in Hd.
    assert (h + k < 0). { pose proof (Rle_abs k). lra. }
    rewrite (Rabs_left (h + k)) by lra. rewrite (Rabs_left h) at 1 by lra.
    replace ((h + k) * - (h + k) - h * - h) with (- ((h + k) * (h + k)) - - (h * h)) by ring. exact Hd.
  - intros eps He. exists (mkposreal eps He). intros k K0 K1. cbn [pos] in K1.
    rewrite Rabs_R0, Rplus_0_l.
    replace ((k * Rabs k - 0 * 0) / k - 2 * 0) with (Rabs k) by (field; exact K0).
    rewrite Rabs_Rabsolu. exact K1.
  - intros eps He.
    destruct (dl_eq (fun s => s * s) h _ (2 * Rabs h) ltac:(dl) ltac:(cbv beta; rewrite Rabs_pos_eq; lra) eps He) as [d Hd].
    assert (Hm : 0 < Rmin d h) by (apply Rmin_pos; [apply cond_pos|lra]).
    exists (mkposreal _ Hm). intros k K0 K1. cbn [pos] in K1.
    pose proof (Rmin_l d h). pose proof (Rmin_r d h).
    specialize (Hd k K0 ltac:(lra)). cbv beta in Hd.
    assert (0 < h + k). { pose proof (Rle_abs (- k)). rewrite Rabs_Ropp in *. lra. }
    rewrite (Rabs_pos_eq (h + k)) by lra. rewrite (Rabs_pos_eq h) at 1 by lra. exact Hd.
Qed.
Lemma profile_derivable : forall s x, exists l, derivable_pt_lim (adv_profile s) x l.
Proof.
  intros s x. destruct s.
  - exists (cos (2 * PI * x) * (2 * PI)). apply (dl_ext (fun x => sin (2 * PI * x))).
    + intros y. unfold adv_profile. cbv zeta. f_equal. field.
    + deriv. ring.
  - exists (2 * Rabs (sin (2 * PI * x)) * (cos (2 * PI * x) * (2 * PI))).
    apply (dl_ext (fun x => sin (2 * PI * x) * Rabs (sin (2 * PI * x)))).
    + intros y. unfold adv_profile. cbv zeta. rewrite sign_sq.
      replace (8 * (PI / 4) * y * 1) with (2 * PI * y) by field. reflexivity.
    + apply (dl_comp (fun h => h * Rabs h) (fun x => sin (2 * PI * x))); [deriv; ring|apply dl_habs].
Qed.

(** The value returned for time and place: a solution of the advection equation. *)
Lemma analytic_solves : forall s (a : R -> R -> R),
  (forall x t, exists fuel, adv_analytic fuel t x s = Some (a x t)) ->
  (forall x t, exists l, derivable_pt_lim (fun y => a y t) x l /\ derivable_pt_lim (fun r => a x r) t (- l)) /\
  (forall t, periodic 1 (fun x => a x t)) /\
  (forall x, a x 0 = if s then sin (2 * PI * x) else sin (2 * PI * x) * Rabs (sin (2 * PI * x))).
Proof.
  intros s a H.
  assert (E : forall x t, a x t = adv_profile s (x - t)).
  { intros x t. destruct (H x t) as [fuel F]. apply (analytic_value fuel t x s _ F). }
  repeat split.
  - intros x t. destruct (profile_derivable s (x - t)) as [l D]. exists l. split.
    + apply (dl_ext (fun y => adv_profile s (y - t))); [intros; symmetry; apply E|].
      eapply dl_eq; [apply (dl_comp (adv_profile s) (fun y => y - t)); [dl|exact D]|ring].
    + apply (dl_ext (fun r => adv_profile s (x - r))); [intros; symmetry; apply E|].
      eapply dl_eq; [apply (dl_comp (adv_profile s) (fun r => x - r)); [dl|exact D]|ring].
  - intros t x. rewrite !E. replace (x + 1 - t) with (x - t + 1) by ring. apply profile_period.
  - intros x. rewrite E, Rminus_0_r. unfold adv_profile. cbv zeta.
    replace (8 * (PI / 4) * x * 1) with (2 * PI * x) by field. destruct s; [reflexivity|apply sign_sq].
Qed.

(** ** The time loop *)
Section Loop.
  Variables (F : Type) (semi out : bool) (dt t_end : R) (transport : F -> F).
  Hypothesis Hdt : 0 < dt.
  Hypothesis Hgood : semi = true \/ out = false.
  Lemma adv_time_good : forall t, adv_time semi out dt t = t + dt.
  Proof. intros t. unfold adv_time. destruct Hgood as [-> | ->]; [reflexivity|destruct semi; reflexivity]. Qed.

  Lemma adv_loop_value : forall fuel f t i f' t' i', adv_loop semi out dt t_end transport fuel f t i = Some (f', t', i') ->
    exists n, i' = (i + n)%nat /\ f' = Nat.iter n transport f /\ t' = t + INR n * dt /\ t_end <= t' /\
              (n <> O -> t' - dt < t_end).
  Proof.
    induction fuel as [|k IH]; intros f t i f' t' i'; cbn [adv_loop]; destruct (Rlt_dec t t_end) as [L|L]; intros H; try discriminate.
    - injection H as <- <- <-. exists O. repeat split; [lia|simpl; ring|lra|congruence].
    - rewrite adv_time_good in H. destruct (IH _ _ _ _ _ _ H) as (n & A & B & C & D & G).
      exists (S n). repeat split.
      + lia.
      + rewrite B. clear. induction n as [|n IH]; [reflexivity|]. simpl in *. rewrite IH. reflexivity.
      + rewrite C, S_INR. ring.
      + exact D.
      + intros _. destruct n as [|n]; [rewrite C; simpl; lra|apply G; congruence].
    - injection H as <- <- <-. exists O. repeat split; [lia|simpl; ring|lra|congruence].
  Qed.
  Lemma adv_loop_ends : forall n fuel f t i, (n <= fuel)%nat -> t_end <= t + INR n * dt ->
    exists r, adv_loop semi out dt t_end transport fuel f t i = Some r.
  Proof.
    induction n as [|n IH]; intros fuel f t i Hf Ht.
    - simpl in Ht. destruct fuel; cbn [adv_loop]; destruct (Rlt_dec t t_end); try lra; eexists; reflexivity.
    - destruct fuel as [|k]; [lia|]. cbn [adv_loop]. destruct (Rlt_dec t t_end) as [L|L]; [|eexists; reflexivity].
      rewrite adv_time_good. apply IH; [lia|]. rewrite S_INR in Ht. lra.
  Qed.
End Loop.

Lemma adv_loop_complete : forall (F : Type) semi out dt t_end (transport : F -> F) f,
  0 < dt -> semi = true \/ out = false ->
  exists fuel n, adv_loop semi out dt t_end transport fuel f 0 0 = Some (Nat.iter n transport f, INR n * dt, n) /\
    t_end <= INR n * dt /\ (n <> O -> INR n * dt - dt < t_end).
Proof.
  intros F semi out dt t_end transport f Hdt Hg. destruct (nat_above (t_end / dt)) as [n Hn].
  assert (T : t_end <= 0 + INR n * dt).
  { apply (Rmult_le_compat_r dt) in Hn; [|lra]. unfold Rdiv in Hn. rewrite Rmult_assoc, Rinv_l in Hn; lra. }
  destruct (adv_loop_ends F semi out dt t_end transport Hg n n f 0 0 (le_n n) T) as [[[f' t'] i'] E].
  destruct (adv_loop_value F semi out dt t_end transport Hg n f 0 0 f' t' i' E) as (m & A & B & C & D & G).
  exists n, m. rewrite E. subst. rewrite Rplus_0_l in *. auto.
Qed.

(** With graphics in the standard directory the time runs away. *)
Lemma adv_loop_output : forall (F : Type) (transport : F -> F) f,
  adv_loop false true (1 / 10) 1 transport 4 f 0 0 = Some (Nat.iter 4 transport f, 15 / 10, 4%nat).
Proof.
  intros F transport f. cbn [adv_loop]. unfold adv_time.
  repeat match goal with |- context [Rlt_dec ?a ?b] => destruct (Rlt_dec a b); [|lra] end.
  match goal with |- context [Rlt_dec ?a ?b] => destruct (Rlt_dec a b); [lra|] end.
  cbn [Nat.iter nat_rect]. replace (15 / 10) with (0 + (0 + 1 / 10) + (0 + (0 + 1 / 10) + 1 / 10) + (0 + (0 + 1 / 10) + (0 + (0 + 1 / 10) + 1 / 10) + 1 / 10) + (0 + (0 + 1 / 10) + (0 + (0 + 1 / 10) + 1 / 10) + (0 + (0 + 1 / 10) + (0 + (0 + 1 / 10) + 1 / 10) + 1 / 10) + 1 / 10)) by lra.
  reflexivity.
Qed.
