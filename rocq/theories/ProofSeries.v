(** Series of functions that are dominated by k q^k: limits and derivatives term by term. *)
From Coq Require Import Reals Ranalysis5 Lra Lia.
From Verif Require Import SpecBenchmarks ProofDeriv.
Local Open Scope R_scope.

(** ** The dominating series *)
Lemma arith_geom : forall q n, (1 - q) * (1 - q) * sum_f_R0 (fun k => (INR k + 1) * q ^ k) n
  = 1 - (INR n + 2) * q ^ (S n) + (INR n + 1) * q ^ (S (S n)).
Proof.
  intros q n. induction n as [|n IH].
  - simpl. ring.
  - rewrite tech5, Rmult_plus_distr_l, IH, S_INR. simpl pow. ring.
Qed.

Lemma arith_geom_cv : forall q, 0 <= q < 1 -> {l | Un_cv (sum_f_R0 (fun k => (INR k + 1) * q ^ k)) l}.
Proof.
  intros q H. apply growing_cv.
  - intros n. rewrite tech5. assert (0 <= (INR (S n) + 1) * q ^ S n).
    { apply Rmult_le_pos; [pose proof (pos_INR (S n)); lra|apply pow_le; lra]. }
    lra.
  - exists (/ ((1 - q) * (1 - q))). intros x [n E]. subst x.
    assert (P : 0 < (1 - q) * (1 - q)) by (apply Rmult_lt_0_compat; lra).
    apply (Rmult_le_reg_l _ _ _ P). rewrite arith_geom, Rinv_r by lra.
    assert (0 <= q ^ S n) by (apply pow_le; lra).
    assert (q ^ (S (S n)) <= q ^ S n).
    { simpl pow in *. rewrite <- (Rmult_1_l (q * q ^ n)) at 2. apply Rmult_le_compat_r; lra. }
    pose proof (pos_INR n).
    assert ((INR n + 1) * q ^ S (S n) <= (INR n + 1) * q ^ S n) by (apply Rmult_le_compat_l; lra).
    lra.
Qed.

(** Partial sums of a dominated series are close to each other. *)
Lemma sum_gap : forall (a M : nat -> R), (forall k, Rabs (a k) <= M k) ->
  forall n m, (n <= m)%nat -> Rabs (sum_f_R0 a m - sum_f_R0 a n) <= sum_f_R0 M m - sum_f_R0 M n.
Proof.
  intros a M B n m L. induction L as [|m L IH].
  - rewrite !Rminus_eq_0, Rabs_R0. lra.
  - rewrite !tech5.
    replace (sum_f_R0 a m + a (S m) - sum_f_R0 a n) with ((sum_f_R0 a m - sum_f_R0 a n) + a (S m)) by ring.
    eapply Rle_trans; [apply Rabs_triang|]. specialize (B (S m)). lra.
Qed.

Lemma uniform_cauchy : forall (Y : Type) (fn : nat -> Y -> R) (M : nat -> R) l (P : Y -> Prop),
  (forall k y, P y -> Rabs (fn k y) <= M k) -> Un_cv (sum_f_R0 M) l ->
  forall eps, 0 < eps -> exists N, forall n m y, (N <= n)%nat -> (N <= m)%nat -> P y ->
    Rabs (sum_f_R0 (fun k => fn k y) m - sum_f_R0 (fun k => fn k y) n) < eps.
Proof.
  intros Y fn M l P B C eps He.
  destruct (CV_Cauchy (sum_f_R0 M) (exist _ l C) eps He) as [N HN].
  exists N.
  assert (W : forall n m y, (N <= n)%nat -> (n <= m)%nat -> P y ->
    Rabs (sum_f_R0 (fun k => fn k y) m - sum_f_R0 (fun k => fn k y) n) < eps).
  { intros n m y Hn Hnm HP.
    eapply Rle_lt_trans; [apply (sum_gap _ M); [intros; apply B; exact HP|exact Hnm]|].
    eapply Rle_lt_trans; [apply Rle_abs|]. apply HN; lia. }
  intros n m y Hn Hm HP. destruct (Nat.le_ge_cases n m) as [L|L].
  - apply W; assumption.
  - rewrite Rabs_minus_sym. apply W; assumption.
Qed.

(** A bound on all later partial sums is a bound on the limit. *)
Lemma limit_bound : forall (s : nat -> R) l a b N, Un_cv s l -> (forall m, (N <= m)%nat -> Rabs (s m - a) <= b) -> Rabs (l - a) <= b.
Proof.
  intros s l a b N C B. apply le_epsilon. intros eps He. destruct (C eps He) as [M HM].
  set (m := Nat.max N M). specialize (B m ltac:(lia)). specialize (HM m ltac:(lia)).
  unfold R_dist in HM. rewrite Rabs_minus_sym in HM.
  replace (l - a) with ((l - s m) + (s m - a)) by ring.
  eapply Rle_trans; [apply Rabs_triang|]. lra.
Qed.

Lemma uniform_limit : forall (fn : nat -> R -> R) (g : R -> R) M l c (r : posreal),
  (forall k y, Boule c r y -> Rabs (fn k y) <= M k) -> Un_cv (sum_f_R0 M) l ->
  (forall y, Boule c r y -> Un_cv (fun n => sum_f_R0 (fun k => fn k y) n) (g y)) ->
  CVU (fun n y => sum_f_R0 (fun k => fn k y) n) g c r.
Proof.
  intros fn g M l c r B C L eps He.
  destruct (uniform_cauchy R fn M l (Boule c r) B C (eps / 2) ltac:(lra)) as [N HN].
  exists N. intros n y Hn Hy.
  apply Rle_lt_trans with (eps / 2); [|lra].
  apply (limit_bound _ _ _ _ N (L y Hy)). intros m Hm. left. apply HN; assumption.
Qed.

Lemma sum_continuity : forall (fn : nat -> R -> R) y n, (forall k, continuity_pt (fn k) y) ->
  continuity_pt (fun s => sum_f_R0 (fun k => fn k s) n) y.
Proof.
  intros fn y n H. induction n as [|n IH].
  - simpl. apply (H O).
  - apply (continuity_pt_plus (fun s => sum_f_R0 (fun k => fn k s) n) (fn (S n))); [exact IH|apply H].
Qed.

Lemma sum_derivative : forall (fn fn' : nat -> R -> R) y n, (forall k, derivable_pt_lim (fn k) y (fn' k y)) ->
  derivable_pt_lim (fun s => sum_f_R0 (fun k => fn k s) n) y (sum_f_R0 (fun k => fn' k y) n).
Proof.
  intros fn fn' y n H. induction n as [|n IH].
  - simpl. apply (H O).
  - apply (dl_plus (fun s => sum_f_R0 (fun k => fn k s) n) (fn (S n))); [exact IH|apply H].
Qed.

(** Differentiation term by term on a ball. *)
Lemma series_derivative : forall (fn fn' : nat -> R -> R) (f g : R -> R) M l c (r : posreal),
  (forall k y, derivable_pt_lim (fn k) y (fn' k y)) ->
  (forall k y, continuity_pt (fn' k) y) ->
  (forall k y, Boule c r y -> Rabs (fn' k y) <= M k) -> Un_cv (sum_f_R0 M) l ->
  (forall y, Boule c r y -> Un_cv (fun n => sum_f_R0 (fun k => fn k y) n) (f y)) ->
  (forall y, Boule c r y -> Un_cv (fun n => sum_f_R0 (fun k => fn' k y) n) (g y)) ->
  derivable_pt_lim f c (g c).
Proof.
  intros fn fn' f g M l c r D K B C Lf Lg.
  assert (U : CVU (fun n y => sum_f_R0 (fun k => fn' k y) n) g c r) by (apply (uniform_limit fn' g M l); assumption).
  assert (In : Boule c r c) by (unfold Boule; rewrite Rminus_eq_0, Rabs_R0; apply cond_pos).
  apply (derivable_pt_lim_CVU (fun n y => sum_f_R0 (fun k => fn k y) n) (fun n y => sum_f_R0 (fun k => fn' k y) n) f g c c r In).
  - intros y n _. apply sum_derivative. intros k; apply D.
  - exact Lf.
  - exact U.
  - intros y Hy. apply (CVU_continuity (fun n y => sum_f_R0 (fun k => fn' k y) n) g c r U); [|exact Hy].
    intros n z _. apply sum_continuity. intros k; apply K.
Qed.

(** ** Families of functions of height and time *)

Definition dominated (T : nat -> R -> R -> R) :=
  forall tau, 0 < tau -> exists C q, 0 <= C /\ 0 <= q < 1 /\
    forall k h t, tau <= t -> Rabs (T k h t) <= C * ((INR k + 1) * q ^ k).

Lemma dominated_cv : forall C q, 0 <= q < 1 -> exists l, Un_cv (sum_f_R0 (fun k => C * ((INR k + 1) * q ^ k))) l.
Proof.
  intros C q H. destruct (arith_geom_cv q H) as [l Hl]. exists (C * l).
  assert (E : forall n, sum_f_R0 (fun k => C * ((INR k + 1) * q ^ k)) n = C * sum_f_R0 (fun k => (INR k + 1) * q ^ k) n).
  { intros n. rewrite scal_sum. apply sum_eq. intros; ring. }
  intros eps He. 
  destruct (CV_mult (fun _ => C) _ C l ltac:(intros e H1; exists O; intros; unfold R_dist; rewrite Rminus_eq_0, Rabs_R0; exact H1) Hl eps He) as [N HN].
  exists N. intros n Hn. rewrite E. apply HN; exact Hn.
Qed.

Lemma dominated_limit : forall T, dominated T -> forall h t, 0 < t ->
  {l | Un_cv (fun n => sum_f_R0 (fun k => T k h t) n) l}.
Proof.
  intros T D h t Ht. apply R_complete. intros eps He.
  destruct (D t Ht) as (C & q & HC & Hq & B).
  destruct (dominated_cv C q Hq) as [l Hl].
  destruct (uniform_cauchy R (fun k y => T k h y) (fun k => C * ((INR k + 1) * q ^ k)) l (fun y => y = t)
    ltac:(intros k y ->; apply B; lra) Hl eps He) as [N HN].
  exists N. intros n m Hn Hm. unfold R_dist. apply (HN m n t); [exact Hm|exact Hn|reflexivity].
Qed.

(** The sum of a dominated family at positive times. *)
Definition total (T : nat -> R -> R -> R) (D : dominated T) (h t : R) : R :=
  match Rlt_dec 0 t with
  | left p => proj1_sig (dominated_limit T D h t p)
  | right _ => 0
  end.
Lemma total_cv : forall T D h t, 0 < t -> Un_cv (fun n => sum_f_R0 (fun k => T k h t) n) (total T D h t).
Proof.
  intros T D h t H. unfold total. destruct (Rlt_dec 0 t) as [p|n]; [|contradiction].
  exact (proj2_sig (dominated_limit T D h t p)).
Qed.

Lemma total_dh : forall T T' D D', (forall k h t, derivable_pt_lim (fun s => T k s t) h (T' k h t)) ->
  (forall k h t, continuity_pt (fun s => T' k s t) h) ->
  forall h t, 0 < t -> derivable_pt_lim (fun s => total T D s t) h (total T' D' h t).
Proof.
  intros T T' D D' Der Con h t Ht.
  destruct (D' t Ht) as (C & q & HC & Hq & B). destruct (dominated_cv C q Hq) as [l Hl].
  apply (series_derivative (fun k s => T k s t) (fun k s => T' k s t) (fun s => total T D s t) (fun s => total T' D' s t)
    (fun k => C * ((INR k + 1) * q ^ k)) l h (mkposreal 1 Rlt_0_1)).
  - intros; apply Der.
  - intros; apply Con.
  - intros k y _. apply B. lra.
  - exact Hl.
  - intros y _. apply total_cv; exact Ht.
  - intros y _. apply total_cv; exact Ht.
Qed.

Lemma total_dt : forall T T' D D', (forall k h t, derivable_pt_lim (fun s => T k h s) t (T' k h t)) ->
  (forall k h t, continuity_pt (fun s => T' k h s) t) ->
  forall h t, 0 < t -> derivable_pt_lim (fun s => total T D h s) t (total T' D' h t).
Proof.
  intros T T' D D' Der Con h t Ht.
  assert (H2 : 0 < t / 2) by lra.
  destruct (D' (t / 2) H2) as (C & q & HC & Hq & B). destruct (dominated_cv C q Hq) as [l Hl].
  assert (In : forall y, Boule t (mkposreal (t / 2) H2) y -> t / 2 < y).
  { intros y Hy. unfold Boule in Hy. simpl in Hy. apply Rabs_def2 in Hy. lra. }
  apply (series_derivative (fun k s => T k h s) (fun k s => T' k h s) (fun s => total T D h s) (fun s => total T' D' h s)
    (fun k => C * ((INR k + 1) * q ^ k)) l t (mkposreal (t / 2) H2)).
  - intros; apply Der.
  - intros; apply Con.
  - intros k y Hy. apply B. apply In in Hy. lra.
  - exact Hl.
  - intros y Hy. apply total_cv. apply In in Hy. lra.
  - intros y Hy. apply total_cv. apply In in Hy. lra.
Qed.
