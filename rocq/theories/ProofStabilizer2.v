(** The pseudo-entropic stabilizer: moments, minimality, equilibria. *)
From Coq Require Import QArith Qreals.
From Verif Require Import Prelude StencilData StabilizerData ModelStencils SpecStencils SpecCollision BigSum ProofStencils ProofEqMoments
  ModelConfigNames ModelEquilibria ModelCollision ModelOldCollision SpecOldCollision ProofOldCollision ProofOldNode ProofOldNode2 ModelEntropic SpecEntropic ProofKBC ProofKBC9 ProofStabilizer.
Local Open Scope R_scope.

Definition stab_stencil (k : stab_kind) (s : R) : stencil := match k with Stab_D3Q19 => D3Q19 s | _ => D2Q9 s end.
Lemma stab_Q k s : st_Q (stab_stencil k s) = stab_size k.
Proof. destruct k; reflexivity. Qed.
Lemma stab_D k s : st_D (stab_stencil k s) = stab_dim k.
Proof. destruct k; reflexivity. Qed.
Lemma stab_e k s i a : st_e (stab_stencil k s) i a = s * c3 k i a.
Proof. destruct k; reflexivity. Qed.
Lemma stab_w k s i : st_w (stab_stencil k s) i = w3 k i.
Proof. destruct k; reflexivity. Qed.

Definition S0 (k : stab_kind) (f : nat -> R) : R := sumf (stab_size k) f.
Definition S1 (k : stab_kind) (f : nat -> R) (a : nat) : R := sumf (stab_size k) (fun i => f i * c3 k i a).
Definition S2 (k : stab_kind) (f : nat -> R) (a b : nat) : R := sumf (stab_size k) (fun i => f i * c3 k i a * c3 k i b).

Lemma mass_S k s f : mass (stab_stencil k s) f = S0 k f.
Proof. unfold mass, S0. rewrite stab_Q. reflexivity. Qed.
Lemma momentum_S k s f a : momentum (stab_stencil k s) f a = s * S1 k f a.
Proof. unfold momentum, S1. rewrite stab_Q, <- sumf_scal. apply sumf_ext. intros. rewrite stab_e. ring. Qed.
Lemma moment2_S k s f a b : moment2 (stab_stencil k s) f a b = s * s * S2 k f a b.
Proof. unfold moment2, S2. rewrite stab_Q, <- sumf_scal. apply sumf_ext. intros. rewrite !stab_e. ring. Qed.

(** the third component in two dimensions *)
Lemma c3_two i : tbl D2Q9_dir i 2 = 0.
Proof. do 9 (destruct i as [|i]; [unfold tbl, tblQ; cbn; unfold Q2R; cbn; ring|]). unfold tbl, tblQ. destruct i; cbn; unfold Q2R; cbn; ring. Qed.

(** ** Conservation *)
Lemma stab_S0 k f : S0 k (stabilize k f) = S0 k f.
Proof.
  assert (H := columns_checked k). unfold check_columns in H. rewrite !andb_true_iff in H. destruct H as [[H _] _].
  assert (E := col_sound k _ H f). assert (E1 : Q2R 1 = 1) by (unfold Q2R; cbn; field). cbv beta in E. rewrite E1 in E.
  unfold S0. rewrite (sumf_ext _ (stabilize k f) (fun i => stabilize k f i * 1)) by (intros; ring). rewrite E. apply sumf_ext. intros; ring.
Qed.
Lemma stab_S1 k f a : (a < stab_dim k)%nat -> S1 k (stabilize k f) a = S1 k f a.
Proof.
  intros Ha. assert (H := columns_checked k). unfold check_columns in H. rewrite !andb_true_iff in H. destruct H as [[_ H] _].
  rewrite forallb_forall in H. specialize (H a). rewrite in_seq in H. exact (col_sound k _ (H (conj (Nat.le_0_l a) Ha)) f).
Qed.
Lemma stab_S2 k f a b : k <> Stab_D2Q9_with_e -> (a < stab_dim k)%nat -> (b < stab_dim k)%nat -> S2 k (stabilize k f) a b = S2 k f a b.
Proof.
  intros Hk Ha Hb. assert (H := columns_checked k). unfold check_columns in H. rewrite !andb_true_iff in H. destruct H as [_ H].
  rewrite forallb_forall in H. specialize (H a). rewrite in_seq in H. assert (G := H (conj (Nat.le_0_l a) Ha)).
  rewrite forallb_forall in G. specialize (G b). rewrite in_seq in G. assert (C := G (conj (Nat.le_0_l b) Hb)).
  assert (C' : col k (fun i => cQ k i a * cQ k i b)%Q = true) by (destruct k; [exact C|congruence|exact C]).
  assert (E := col_sound k _ C' f). unfold S2.
  assert (T : forall g, sumf (stab_size k) (fun i => g i * c3 k i a * c3 k i b) = sumf (stab_size k) (fun i => g i * Q2R (cQ k i a * cQ k i b))).
  { intros g. apply sumf_ext. intros. rewrite Q2R_mult. unfold c3, cQ, tbl. ring. }
  rewrite !T. exact E.
Qed.
Lemma stab_dev f a b : (a < 2)%nat -> (b < 2)%nat ->
  let k := Stab_D2Q9_with_e in let dev g := S2 k g a b - (if Nat.eqb a b then 1/2 * (S2 k g 0 0 + S2 k g 1 1) else 0) in
  dev (stabilize k f) = dev f.
Proof.
  intros Ha Hb k dev. assert (H := columns_checked k). unfold check_columns in H. rewrite !andb_true_iff in H. destruct H as [_ H].
  rewrite forallb_forall in H. specialize (H a). rewrite in_seq in H. assert (G := H (conj (Nat.le_0_l a) Ha)).
  rewrite forallb_forall in G. specialize (G b). rewrite in_seq in G. assert (C := G (conj (Nat.le_0_l b) Hb)).
  assert (E := col_sound k _ C f).
  assert (T : forall g, dev g = sumf (stab_size k) (fun i => g i * Q2R (cQ k i a * cQ k i b - (if Nat.eqb a b then (1#2) * dotQ k i i else 0)))).
  { intros g. unfold dev, S2. destruct (Nat.eqb a b).
    - rewrite <- sumf_plus, <- sumf_scal, <- sumf_minus. apply sumf_ext. intros i _. rewrite Q2R_minus, !Q2R_mult, dotQ_ok.
      unfold dot3. unfold c3 at 11 12. cbn [dirQ k]. rewrite c3_two. assert (E12 : Q2R (1#2) = 1/2) by (unfold Q2R; cbn; field). rewrite E12. unfold c3, cQ, tbl. ring.
    - rewrite Rminus_0_r. apply sumf_ext. intros i _. rewrite Q2R_minus, Q2R_mult. assert (E0 : Q2R 0 = 0) by (unfold Q2R; cbn; field). rewrite E0. unfold c3, cQ, tbl. ring. }
  rewrite !T. exact E.
Qed.
