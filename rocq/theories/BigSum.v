(** Lemmas about finite sums. *)
From Coq Require Import Permutation.
From Verif Require Import Prelude.
Open Scope R_scope.

Lemma sumf_ext n f g : (forall i, (i < n)%nat -> f i = g i) -> sumf n f = sumf n g.
Proof.
  induction n as [|n IH]; intros H; cbn [sumf]; [reflexivity|].
  rewrite IH, (H n); auto; intros; apply H; lia.
Qed.

Lemma sumf_plus n f g : sumf n (fun i => f i + g i) = sumf n f + sumf n g.
Proof. induction n as [|n IH]; cbn [sumf]; [ring|]. rewrite IH; ring. Qed.

Lemma sumf_minus n f g : sumf n (fun i => f i - g i) = sumf n f - sumf n g.
Proof. induction n as [|n IH]; cbn [sumf]; [ring|]. rewrite IH; ring. Qed.

Lemma sumf_opp n f : sumf n (fun i => - f i) = - sumf n f.
Proof. induction n as [|n IH]; cbn [sumf]; [ring|]. rewrite IH; ring. Qed.

Lemma sumf_scal n c f : sumf n (fun i => c * f i) = c * sumf n f.
Proof. induction n as [|n IH]; cbn [sumf]; [ring|]. rewrite IH; ring. Qed.

Lemma sumf_scal_r n c f : sumf n (fun i => f i * c) = sumf n f * c.
Proof. induction n as [|n IH]; cbn [sumf]; [ring|]. rewrite IH; ring. Qed.

Lemma sumf_0 n : sumf n (fun _ => 0) = 0.
Proof. induction n as [|n IH]; cbn [sumf]; [ring|]. rewrite IH; ring. Qed.

Lemma sumf_zero n f : (forall i, (i < n)%nat -> f i = 0) -> sumf n f = 0.
Proof. intros H. rewrite (sumf_ext n f (fun _ => 0)); auto using sumf_0. Qed.

Lemma sumf_const n c : sumf n (fun _ => c) = INR n * c.
Proof. induction n as [|n IH]; cbn [sumf]; [cbn; ring|]. rewrite IH, S_INR; ring. Qed.

Lemma sumf_swap n m f :
  sumf n (fun i => sumf m (fun j => f i j)) = sumf m (fun j => sumf n (fun i => f i j)).
Proof.
  induction n as [|n IH]; cbn [sumf].
  - symmetry; apply sumf_0.
  - rewrite IH. rewrite <- sumf_plus. reflexivity.
Qed.

Lemma sumf_le n f g : (forall i, (i < n)%nat -> f i <= g i) -> sumf n f <= sumf n g.
Proof.
  induction n as [|n IH]; intros H; cbn [sumf]; [lra|].
  apply Rplus_le_compat; [apply IH; intros; apply H; lia | apply H; lia].
Qed.

Lemma sumf_nonneg n f : (forall i, (i < n)%nat -> 0 <= f i) -> 0 <= sumf n f.
Proof. intros H. rewrite <- (sumf_0 n). apply sumf_le; auto. Qed.

Lemma sumf_nonneg_zero n f :
  (forall i, (i < n)%nat -> 0 <= f i) -> sumf n f = 0 -> forall i, (i < n)%nat -> f i = 0.
Proof.
  induction n as [|n IH]; intros H H0 i Hi; [lia|].
  cbn [sumf] in H0.
  assert (0 <= sumf n f) by (apply sumf_nonneg; intros; apply H; lia).
  assert (0 <= f n) by (apply H; lia).
  destruct (Nat.eq_dec i n) as [->|]; [lra|].
  apply IH; [intros; apply H; lia | lra | lia].
Qed.

Lemma sumf_abs n f : Rabs (sumf n f) <= sumf n (fun i => Rabs (f i)).
Proof.
  induction n as [|n IH]; cbn [sumf]; [rewrite Rabs_R0; lra|].
  eapply Rle_trans; [apply Rabs_triang|]. lra.
Qed.

Lemma sumf_S_first n f : sumf (S n) f = f O + sumf n (fun i => f (S i)).
Proof. induction n as [|n IH]; [cbn; ring|]. cbn [sumf] in *. rewrite IH. ring. Qed.

Lemma sumf_delta n k f : (k < n)%nat -> sumf n (fun i => delta k i * f i) = f k.
Proof.
  induction n as [|n IH]; intros Hk; [lia|]. cbn [sumf]. unfold delta at 2.
  destruct (Nat.eqb_spec k n) as [->|Hne].
  - rewrite (sumf_zero n); [ring|]. intros i Hi. unfold delta.
    destruct (Nat.eqb_spec n i); [lia|ring].
  - rewrite IH by lia. ring.
Qed.

Lemma delta_sym a b : delta a b = delta b a.
Proof. unfold delta. rewrite Nat.eqb_sym. reflexivity. Qed.

Lemma delta_refl a : delta a a = 1.
Proof. unfold delta. rewrite Nat.eqb_refl. reflexivity. Qed.

(** Sums over lists; re-indexing along a permutation. *)
Fixpoint suml {A} (f : A -> R) (l : list A) : R :=
  match l with [] => 0 | x :: l' => f x + suml f l' end.

Lemma suml_app {A} (f : A -> R) l1 l2 : suml f (l1 ++ l2) = suml f l1 + suml f l2.
Proof. induction l1 as [|x l1 IH]; cbn; [ring|]. rewrite IH. ring. Qed.

Lemma suml_perm {A} (f : A -> R) l1 l2 : Permutation l1 l2 -> suml f l1 = suml f l2.
Proof. induction 1; cbn in *; lra. Qed.

Lemma suml_map {A B} (f : B -> R) (g : A -> B) l : suml f (map g l) = suml (fun x => f (g x)) l.
Proof. induction l as [|x l IH]; cbn; [reflexivity|]. rewrite IH. reflexivity. Qed.

Lemma suml_ext {A} (f g : A -> R) l : (forall x, In x l -> f x = g x) -> suml f l = suml g l.
Proof.
  induction l as [|x l IH]; intros H; cbn; [reflexivity|].
  rewrite IH, (H x); auto; [left; reflexivity | intros; apply H; right; assumption].
Qed.

Lemma sumf_suml n f : sumf n f = suml f (seq 0 n).
Proof.
  induction n as [|n IH]; [reflexivity|].
  rewrite seq_S, suml_app. cbn. rewrite IH. ring.
Qed.

(** Re-indexing along an involution of {0,...,n-1}. *)
Lemma sumf_involution n (p : nat -> nat) f :
  (forall i, (i < n)%nat -> (p i < n)%nat /\ p (p i) = i) ->
  sumf n (fun i => f (p i)) = sumf n f.
Proof.
  intros H. rewrite !sumf_suml. rewrite <- (suml_map f p).
  apply suml_perm. apply NoDup_Permutation.
  - assert (Hnd : NoDup (seq 0 n)) by apply seq_NoDup.
    assert (Hin : forall x, In x (seq 0 n) -> (x < n)%nat) by (intros x Hx; apply in_seq in Hx; lia).
    revert Hnd Hin. generalize (seq 0 n) as l.
    induction l as [|x l IH]; intros Hnd Hin; [constructor|].
    cbn. inversion Hnd as [|? ? Hx Hl]; subst. constructor.
    + intros Hc. apply in_map_iff in Hc. destruct Hc as [y [Hy Hyl]].
      apply Hx. destruct (H x) as [_ Hpx]; [apply Hin; left; reflexivity|].
      destruct (H y) as [_ Hpy]; [apply Hin; right; assumption|].
      rewrite <- Hpx, <- Hy, Hpy. assumption.
    + apply IH; [assumption|]. intros; apply Hin; right; assumption.
  - apply seq_NoDup.
  - intros x. rewrite in_map_iff. split.
    + intros [y [Hy Hyn]]. apply in_seq in Hyn. apply in_seq.
      destruct (H y) as [Hlt _]; [lia|]. subst. lia.
    + intros Hx. apply in_seq in Hx. exists (p x).
      destruct (H x) as [Hlt Hpp]; [lia|]. split; [assumption|apply in_seq; lia].
Qed.
