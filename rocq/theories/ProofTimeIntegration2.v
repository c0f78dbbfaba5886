(** Runge-Kutta integrator: numerical values of the coefficients, comparison with solutions. *)
From Coq Require Import QArith Qreals Qabs.
From Verif Require Import Prelude BigSum ModelTimeIntegration SpecTimeIntegration ProofTimeIntegration.
Local Open Scope R_scope.

(** The coefficient recursion over rational numbers. *)
Definition qa (i : nat) : Q :=
  nth i [0; -567301805773 # 1357537059087; -2404267990393 # 2016746695238;
         -3550918686646 # 2091501179385; -1275806237668 # 842570457699]%Q 0%Q.
Definition qb (i : nat) : Q :=
  nth i [1432997174477 # 9575080441755; 5161836677717 # 13612068292357; 1720146321549 # 2090206949498;
         3134564353537 # 4481467310338; 2277821191437 # 14882151754819]%Q 0%Q.
Fixpoint qmap2 (g : Q -> Q -> Q) (x y : list Q) : list Q :=
  match x, y with p :: x, q :: y => Qred (g p q) :: qmap2 g x y | _, _ => [] end.
Definition qshift (F : list Q) : list Q := 0%Q :: 1%Q :: firstn 4 (tl F).
Definition qstage (i : nat) (s : list Q * list Q) : list Q * list Q :=
  let D := qmap2 (fun d e => qa i * d + e)%Q (snd s) (qshift (fst s)) in
  (qmap2 (fun f d => f + qb i * d)%Q (fst s) D, D).
Fixpoint qcoeffs (i : nat) : list Q * list Q :=
  match i with O => (repeat 0%Q 6, repeat 0%Q 6) | S k => qstage k (qcoeffs k) end.

Lemma qa_ok i : rk_a i = Q2R (qa i).
Proof.
  Transparent rk_a.
  do 5 (destruct i as [|i]; [unfold rk_a, qa, Q2R; cbn [nth Qnum Qden]; lra|]).
  unfold rk_a, qa, Q2R. destruct i; cbn; lra.
  Opaque rk_a.
Qed.

Lemma qb_ok i : rk_b i = Q2R (qb i).
Proof.
  Transparent rk_b.
  do 5 (destruct i as [|i]; [unfold rk_b, qb, Q2R; cbn [nth Qnum Qden]; lra|]).
  unfold rk_b, qb, Q2R. destruct i; cbn; lra.
  Opaque rk_b.
Qed.

Lemma Q2R_red q : Q2R (Qred q) = Q2R q.
Proof. apply Qeq_eqR. apply Qred_correct. Qed.

Definition agrees (F : nat -> R) (l : list Q) : Prop :=
  exists q0 q1 q2 q3 q4 q5, l = [q0; q1; q2; q3; q4; q5] /\
    F 0%nat = Q2R q0 /\ F 1%nat = Q2R q1 /\ F 2%nat = Q2R q2 /\ F 3%nat = Q2R q3 /\ F 4%nat = Q2R q4 /\ F 5%nat = Q2R q5.

Lemma qcoeffs_ok i : agrees (fst (coeffs i)) (fst (qcoeffs i)) /\ agrees (snd (coeffs i)) (snd (qcoeffs i)).
Proof.
  induction i as [|i [[f0 [f1 [f2 [f3 [f4 [f5 [EF HF]]]]]]] [d0 [d1 [d2 [d3 [d4 [d5 [ED HD]]]]]]]]].
  - cbn. split; exists 0%Q, 0%Q, 0%Q, 0%Q, 0%Q, 0%Q; unfold Q2R; cbn; repeat split; lra.
  - cbn [coeffs qcoeffs]. unfold cstage, qstage. cbn [fst snd]. rewrite EF, ED.
    cbn [qshift tl firstn qmap2].
    destruct HF as (F0 & F1 & F2 & F3 & F4 & F5), HD as (D0 & D1 & D2 & D3 & D4 & D5).
    assert (R0 : Q2R 0%Q = 0) by (unfold Q2R; cbn; lra).
    assert (R1 : Q2R 1%Q = 1) by (unfold Q2R; cbn; lra).
    split; do 6 eexists; (split; [reflexivity|]); cbn [shift];
      rewrite ?F0, ?F1, ?F2, ?F3, ?F4, ?F5, ?D0, ?D1, ?D2, ?D3, ?D4, ?D5, qa_ok, ?qb_ok;
      repeat (rewrite ?Q2R_red, ?Q2R_plus, ?Q2R_mult, ?R0, ?R1); repeat split; ring.
Qed.

Definition qclose (x y e : Q) : bool := Qle_bool (Qabs (x - y)%Q) e.

Lemma qclose_ok x y e : qclose x y e = true -> Rabs (Q2R x - Q2R y) <= Q2R e.
Proof.
  unfold qclose. rewrite Qle_bool_iff. intros H. apply Qabs_Qle_condition in H. destruct H as [H1 H2].
  apply Qle_Rle in H1, H2. rewrite Q2R_opp, Q2R_minus in H1. rewrite Q2R_minus in H2.
  apply Rabs_le. lra.
Qed.

Definition expected : list Q := [0; 1; 1#2; 1#6; 1#24; 1#200]%Q.
Definition coeffs_check : bool :=
  match fst (qcoeffs 5) with
  | [q0; q1; q2; q3; q4; q5] =>
      qclose q1 1 (1 # 100000000000000000000)%Q && qclose q2 (1#2) (1 # 100000000000000000000)%Q &&
      qclose q3 (1#6) (1 # 100000000000000000000)%Q && qclose q4 (1#24) (1 # 100000000000000000000)%Q &&
      qclose q5 (1#200) (1 # 1000000000000)%Q
  | _ => false
  end.
Lemma coeffs_check_ok : coeffs_check = true.
Proof. vm_compute. reflexivity. Qed.

(** Coefficient of h^k in one step. *)
Definition rk_coef (k : nat) : R := match k with O => 1 | _ => fst (coeffs 5) k end.

Lemma rk_coef_ok :
  rk_coef 0 = 1 /\
  (forall k, (k <= 4)%nat -> Rabs (rk_coef k - / INR (fact k)) <= / 100000000000000000000) /\
  Rabs (rk_coef 5 - 1 / 200) <= / 1000000000000.
Proof.
  destruct (qcoeffs_ok 5) as [(q0 & q1 & q2 & q3 & q4 & q5 & E & H0 & H1 & H2 & H3 & H4 & H5) _].
  assert (C := coeffs_check_ok). unfold coeffs_check in C. rewrite E in C.
  rewrite !andb_true_iff in C. destruct C as [[[[C1 C2] C3] C4] C5].
  apply qclose_ok in C1, C2, C3, C4, C5.
  unfold rk_coef. rewrite <- H1 in C1. rewrite <- H2 in C2. rewrite <- H3 in C3.
  rewrite <- H4 in C4. rewrite <- H5 in C5.
  clear E H0 H1 H2 H3 H4 H5.
  generalize dependent (fst (coeffs 5)). intros c C1 C2 C3 C4 C5.
  unfold Q2R in *. cbn [Qnum Qden] in *.
  split; [reflexivity|]. split.
  - intros k Hk.
    replace (/ INR (fact k)) with (nth k [1; 1; 1/2; 1/6; 1/24] 0)
      by (do 5 (destruct k as [|k]; [cbn; field|]); lia).
    destruct k as [|[|[|[|[|k]]]]]; [|clear - C1|clear - C2|clear - C3|clear - C4|lia]; cbn [nth].
    + rewrite Rminus_diag_eq, Rabs_R0 by reflexivity. lra.
    + revert C1. unfold Rabs. repeat destruct Rcase_abs; lra.
    + revert C2. unfold Rabs. repeat destruct Rcase_abs; lra.
    + revert C3. unfold Rabs. repeat destruct Rcase_abs; lra.
    + revert C4. unfold Rabs. repeat destruct Rcase_abs; lra.
  - clear - C5. revert C5. unfold Rabs. repeat destruct Rcase_abs; lra.
Qed.

Lemma krylov_derivative n A b f k i : (1 <= k)%nat -> krylov n A b f k i = derivative n A b f k i.
Proof.
  revert i. induction k as [|k IH]; intros i Hk; [lia|]. destruct k as [|k]; [reflexivity|].
  rewrite krylov_S by lia. cbn [derivative]. apply sumf_ext. intros j _. rewrite IH by lia. reflexivity.
Qed.

Lemma rk_taylor n A b h f i : (i < n)%nat ->
  fst (rk_loop n A b h 4 1 (rk_first n A b h f)) i
  = sumf 6 (fun k => rk_coef k * h ^ k * derivative n A b f k i).
Proof.
  intros Hi. rewrite rk_expansion by auto. cbn [sumf]. unfold rk_coef.
  rewrite (krylov_derivative n A b f 1 i), (krylov_derivative n A b f 2 i), (krylov_derivative n A b f 3 i),
    (krylov_derivative n A b f 4 i), (krylov_derivative n A b f 5 i) by lia.
  destruct (coeffs_0 5) as [-> _]. change (derivative n A b f 0 i) with (f i). cbn [pow]. ring.
Qed.

(** *** Solutions *)

Lemma derivable_pt_lim_ext f g x l :
  (forall y, f y = g y) -> derivable_pt_lim f x l -> derivable_pt_lim g x l.
Proof.
  intros E H eps He. destruct (H eps He) as [d Hd]. exists d. intros h Hh Hl.
  rewrite <- !E. apply Hd; auto.
Qed.

Lemma derivable_sumf n (F : nat -> R -> R) (l : nat -> R) x :
  (forall j, (j < n)%nat -> derivable_pt_lim (F j) x (l j)) ->
  derivable_pt_lim (fun s => sumf n (fun j => F j s)) x (sumf n l).
Proof.
  induction n as [|n IH]; intros H; cbn [sumf].
  - apply derivable_pt_lim_const.
  - apply (derivable_pt_lim_plus (fun s => sumf n (fun j => F j s)) (F n)); auto.
Qed.

Lemma derivable_lin n (a : nat -> R) c (F : nat -> R -> R) (l : nat -> R) x :
  (forall j, (j < n)%nat -> derivable_pt_lim (F j) x (l j)) ->
  derivable_pt_lim (fun s => sumf n (fun j => a j * F j s) + c) x (sumf n (fun j => a j * l j)).
Proof.
  intros H. replace (sumf n (fun j => a j * l j)) with (sumf n (fun j => a j * l j) + 0) by ring.
  apply (derivable_pt_lim_plus (fun s => sumf n (fun j => a j * F j s)) (fun _ => c)).
  - apply (derivable_sumf n (fun j s => a j * F j s)). intros j Hj.
    apply derivable_pt_lim_scal. auto.
  - apply derivable_pt_lim_const.
Qed.

Lemma solution_step n A b D : solution n A b D -> forall k t i, (i < n)%nat ->
  D (S (S k)) t i = sumf n (fun j => A i j * D (S k) t j).
Proof.
  intros [HD HR]. induction k as [|k IH]; intros t i Hi.
  - apply (uniqueness_limite (fun s => D 1%nat s i) t); [apply HD; auto|].
    apply derivable_pt_lim_ext with (fun s => sumf n (fun j => A i j * D 0%nat s j) + b i).
    + intros s. rewrite HR by auto. reflexivity.
    + apply (derivable_lin n (A i) (b i) (fun j s => D 0%nat s j)). intros; apply HD; auto.
  - apply (uniqueness_limite (fun s => D (S (S k)) s i) t); [apply HD; auto|].
    apply derivable_pt_lim_ext with (fun s => sumf n (fun j => A i j * D (S k) s j) + 0).
    + intros s. rewrite IH by auto. ring.
    + apply (derivable_lin n (A i) 0 (fun j s => D (S k) s j)). intros; apply HD; auto.
Qed.

Lemma solution_derivative n A b D f : solution n A b D -> (forall i, (i < n)%nat -> D 0%nat 0 i = f i) ->
  forall k i, (i < n)%nat -> D k 0 i = derivative n A b f k i.
Proof.
  intros S H0 k. induction k as [|[|k] IH]; intros i Hi.
  - apply H0; auto.
  - rewrite (proj2 S) by auto. cbn [derivative]. apply rhs_ext. auto.
  - rewrite (solution_step n A b D) by auto. cbn [derivative]. apply sumf_ext. intros j Hj.
    rewrite IH by auto. reflexivity.
Qed.

Lemma derivable_taylor m (d : nat -> R) s :
  derivable_pt_lim (fun s => sumf (S m) (fun k => s ^ k / INR (fact k) * d k)) s
    (sumf m (fun k => s ^ k / INR (fact k) * d (S k))).
Proof.
  induction m as [|m IH].
  - cbn [sumf]. apply derivable_pt_lim_ext with (fun _ => d 0%nat); [intros; cbn; field|].
    apply derivable_pt_lim_const.
  - change (sumf (S m) (fun k => s ^ k / INR (fact k) * d (S k))) with
      (sumf m (fun k => s ^ k / INR (fact k) * d (S k)) + s ^ m / INR (fact m) * d (S m)).
    apply (derivable_pt_lim_plus (fun s => sumf (S m) (fun k => s ^ k / INR (fact k) * d k))
             (fun s => s ^ (S m) / INR (fact (S m)) * d (S m))); [exact IH|].
    apply derivable_pt_lim_ext with (fun s => (d (S m) / INR (fact (S m))) * s ^ (S m)).
    { intros y. field. apply INR_fact_neq_0. }
    replace (s ^ m / INR (fact m) * d (S m)) with
      ((d (S m) / INR (fact (S m))) * (INR (S m) * s ^ pred (S m))).
    { apply (derivable_pt_lim_scal (fun y => y ^ S m)). apply derivable_pt_lim_pow. }
    cbn [pred]. rewrite fact_simpl, mult_INR. field. split; [apply INR_fact_neq_0|apply not_0_INR; lia].
Qed.

Lemma increasing_on f f' h : 0 <= h -> f 0 = 0 ->
  (forall s, 0 <= s <= h -> derivable_pt_lim f s (f' s)) -> (forall s, 0 <= s <= h -> 0 <= f' s) -> 0 <= f h.
Proof.
  intros Hh H0 HD HP. destruct (Req_dec h 0) as [->|N]; [lra|].
  destruct (MVT_cor2 f f' 0 h) as [c [E [C1 C2]]]; [lra|auto|].
  assert (0 <= f' c) by (apply HP; lra). assert (0 <= f' c * (h - 0)) by (apply Rmult_le_pos; lra). lra.
Qed.

Lemma taylor_bound M m : forall (D : nat -> R -> R) h,
  (forall k t, derivable_pt_lim (D k) t (D (S k) t)) -> 0 <= h ->
  (forall s, 0 <= s <= h -> Rabs (D m s) <= M) ->
  Rabs (D 0%nat h - sumf m (fun k => h ^ k / INR (fact k) * D k 0)) <= M * (h ^ m / INR (fact m)).
Proof.
  induction m as [|m IH]; intros D h HD Hh HM.
  - cbn. replace (M * (1 / 1)) with M by field. rewrite Rminus_0_r. apply HM; lra.
  - set (E := fun s => D 0%nat s - sumf (S m) (fun k => s ^ k / INR (fact k) * D k 0)).
    set (E' := fun s => D 1%nat s - sumf m (fun k => s ^ k / INR (fact k) * D (S k) 0)).
    set (P := fun s => M * (s ^ S m / INR (fact (S m)))).
    set (P' := fun s => M * (s ^ m / INR (fact m))).
    assert (DE : forall s, derivable_pt_lim E s (E' s)).
    { intros s. apply (derivable_pt_lim_minus (D 0%nat) (fun s => sumf (S m) (fun k => s ^ k / INR (fact k) * D k 0)));
        [apply HD|]. apply (derivable_taylor m (fun k => D k 0)). }
    assert (DP : forall s, derivable_pt_lim P s (P' s)).
    { intros s. apply (derivable_pt_lim_scal (fun s => s ^ S m / INR (fact (S m)))).
      apply derivable_pt_lim_ext with (fun s => / INR (fact (S m)) * s ^ (S m)).
      { intros y. field. apply INR_fact_neq_0. }
      replace (s ^ m / INR (fact m)) with (/ INR (fact (S m)) * (INR (S m) * s ^ pred (S m))).
      { apply (derivable_pt_lim_scal (fun y => y ^ S m)). apply derivable_pt_lim_pow. }
      cbn [pred]. rewrite fact_simpl, mult_INR. field. split; [apply INR_fact_neq_0|apply not_0_INR; lia]. }
    assert (B : forall s, 0 <= s <= h -> Rabs (E' s) <= P' s).
    { intros s Hs. apply (IH (fun k => D (S k)) s); [intros; apply HD|lra|]. intros u Hu. apply HM. lra. }
    assert (E0 : E 0 = 0).
    { unfold E. rewrite sumf_S_first. rewrite (sumf_zero m) by (intros; cbn [pow]; unfold Rdiv; ring).
      cbn. field. }
    assert (P0 : P 0 = 0) by (unfold P; cbn [pow]; unfold Rdiv; ring).
    fold (E h). fold (P h). apply Rabs_le. split.
    + enough (0 <= P h + E h) by lra.
      apply (increasing_on (fun s => P s + E s) (fun s => P' s + E' s)); auto; [lra| |].
      * intros s _. apply (derivable_pt_lim_plus P E); auto.
      * intros s Hs. assert (Q := B s Hs). revert Q. unfold Rabs. destruct Rcase_abs; lra.
    + enough (0 <= P h - E h) by lra.
      apply (increasing_on (fun s => P s - E s) (fun s => P' s - E' s)); auto; [lra| |].
      * intros s _. apply (derivable_pt_lim_minus P E); auto.
      * intros s Hs. assert (Q := B s Hs). revert Q. unfold Rabs. destruct Rcase_abs; lra.
Qed.

Lemma abs_both x y : Rabs x <= y -> - y <= x <= y.
Proof. unfold Rabs. destruct Rcase_abs; lra. Qed.
Lemma abs_le x y : - y <= x <= y -> Rabs x <= y.
Proof. unfold Rabs. destruct Rcase_abs; lra. Qed.
Lemma INR_120 : INR 120 = 120.
Proof. rewrite INR_IZR_INZ. reflexivity. Qed.

Lemma rk_local_error n A b h f D M i :
  solution n A b D -> (forall i, (i < n)%nat -> D 0%nat 0 i = f i) -> (i < n)%nat -> 0 <= h ->
  (forall s, 0 <= s <= h -> Rabs (D 5%nat s i) <= M) ->
  Rabs (fst (rk_loop n A b h 4 1 (rk_first n A b h f)) i - D 0%nat h i)
  <= M * h ^ 5 / 70 + / 100000000000000000000 * sumf 4 (fun k => h ^ S k * Rabs (D (S k) 0 i)).
Proof.
  intros S H0 Hi Hh HM.
  assert (T := taylor_bound M 5 (fun k s => D k s i) h (fun k t => proj1 S k t i Hi) Hh HM).
  rewrite rk_taylor by auto.
  rewrite (sumf_ext 6 _ (fun k => rk_coef k * h ^ k * D k 0 i))
    by (intros k _; rewrite (solution_derivative n A b D f); auto).
  destruct rk_coef_ok as [C0 [C C5]].
  assert (HM0 := HM 0 ltac:(lra)).
  assert (C1 := C 1%nat ltac:(lia)). assert (C2 := C 2%nat ltac:(lia)).
  assert (C3 := C 3%nat ltac:(lia)). assert (C4 := C 4%nat ltac:(lia)). clear C.
  cbn [sumf fact] in *. rewrite C0.
  set (c1 := rk_coef 1) in *; set (c2 := rk_coef 2) in *; set (c3 := rk_coef 3) in *;
  set (c4 := rk_coef 4) in *; set (c5 := rk_coef 5) in *. clearbody c1 c2 c3 c4 c5.
  set (d0 := D 0%nat 0 i) in *; set (d1 := D 1%nat 0 i) in *; set (d2 := D 2%nat 0 i) in *;
  set (d3 := D 3%nat 0 i) in *; set (d4 := D 4%nat 0 i) in *; set (d5 := D 5%nat 0 i) in *; set (y := D 0%nat h i) in *.
  set (e := / 100000000000000000000) in *.
  assert (P : forall m, 0 <= h ^ m) by (intros; apply pow_le; auto).
  assert (B : forall c c' m d, Rabs (c - c') <= e -> Rabs ((c - c') * h ^ m * d) <= e * (h ^ m * Rabs d)).
  { intros c c' m d H. rewrite !Rabs_mult, (Rabs_pos_eq (h ^ m)) by auto. rewrite Rmult_assoc.
    apply Rmult_le_compat_r; auto. apply Rmult_le_pos; auto using Rabs_pos. }
  assert (B1 := B _ _ 1%nat d1 C1). assert (B2 := B _ _ 2%nat d2 C2).
  assert (B3 := B _ _ 3%nat d3 C3). assert (B4 := B _ _ 4%nat d4 C4).
  assert (B5 : Rabs (c5 * h ^ 5 * d5) <= (1/200 + / 1000000000000) * h ^ 5 * M).
  { rewrite !Rabs_mult, (Rabs_pos_eq (h ^ 5)) by auto.
    apply Rmult_le_compat; auto using Rabs_pos.
    - apply Rmult_le_pos; auto using Rabs_pos.
    - apply Rmult_le_compat_r; auto. revert C5. unfold Rabs. repeat destruct Rcase_abs; lra. }
  assert (M0 : 0 <= M) by (assert (Q := Rabs_pos d5); lra).
  assert (MH : 0 <= M * h ^ 5) by (apply Rmult_le_pos; auto).
  apply abs_both in B1, B2, B3, B4, B5, T. apply abs_le.
  assert (N : M * (h ^ 5 / INR 120) = M * h ^ 5 / 120) by (rewrite INR_120; field).
  assert (X : 0 + 1 * h ^ 0 * d0 + c1 * h ^ 1 * d1 + c2 * h ^ 2 * d2 + c3 * h ^ 3 * d3 + c4 * h ^ 4 * d4 + c5 * h ^ 5 * d5 - y
    = (c1 - / INR 1) * h ^ 1 * d1 + (c2 - / INR 2) * h ^ 2 * d2 + (c3 - / INR 6) * h ^ 3 * d3 + (c4 - / INR 24) * h ^ 4 * d4
      + c5 * h ^ 5 * d5
      - (y - (0 + h ^ 0 / INR 1 * d0 + h ^ 1 / INR 1 * d1 + h ^ 2 / INR 2 * d2 + h ^ 3 / INR 6 * d3 + h ^ 4 / INR 24 * d4)))
    by (change (INR 1) with 1; unfold Rdiv; rewrite Rinv_1; ring).
  change (1 * 1)%nat with 1%nat in *.
  change (5 * (4 * (3 * (2 * 1))))%nat with 120%nat in *.
  change (4 * (3 * (2 * 1)))%nat with 24%nat in *.
  change (3 * (2 * 1))%nat with 6%nat in *.
  change (2 * 1)%nat with 2%nat in *.
  rewrite X. rewrite N in T. clear X N C1 C2 C3 C4 B P.
  match type of B1 with _ <= ?t <= _ => generalize dependent t end; intros t1 B1.
  match type of B2 with _ <= ?t <= _ => generalize dependent t end; intros t2 B2.
  match type of B3 with _ <= ?t <= _ => generalize dependent t end; intros t3 B3.
  match type of B4 with _ <= ?t <= _ => generalize dependent t end; intros t4 B4.
  match type of B5 with _ <= ?t <= _ => generalize dependent t end; intros t5 B5.
  match type of T with _ <= ?t <= _ => generalize dependent t end; intros t6 T.
  clearbody e. lra.
Qed.
