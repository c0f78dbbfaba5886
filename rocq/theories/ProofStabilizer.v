(** The pseudo-entropic stabilizer: closed form of the matrices, moments, minimality. *)
From Coq Require Import QArith Qreals.
From Verif Require Import Prelude StencilData StabilizerData ModelStencils SpecStencils SpecCollision BigSum ProofStencils ProofEqMoments
  ModelConfigNames ModelEquilibria ModelCollision ModelOldCollision SpecOldCollision ProofOldCollision ProofOldNode ProofOldNode2 ModelEntropic SpecEntropic ProofKBC ProofKBC9.
Local Open Scope R_scope.

(** ** The tables over the rationals *)
Definition stabQ (k : stab_kind) (i j : nat) : Q :=
  match k with
  | Stab_D2Q9 => tblQ stab_n i j / tblQ stab_d i j
  | Stab_D2Q9_with_e => tblQ stab_nd_d2q9_with_e i j
  | Stab_D3Q19 => tblQ stab_nd_d3q19 i j
  end%Q.
Definition dirQ (k : stab_kind) := match k with Stab_D3Q19 => D3Q19_dir | _ => D2Q9_dir end.
Definition wtQ (k : stab_kind) := match k with Stab_D3Q19 => D3Q19_wt | _ => D2Q9_wt end.
Definition stab_dim (k : stab_kind) : nat := match k with Stab_D3Q19 => 3 | _ => 2 end.

Definition cQ (k : stab_kind) (i a : nat) : Q := tblQ (dirQ k) i a.
Definition dotQ (k : stab_kind) (i j : nat) : Q := (cQ k i 0 * cQ k j 0 + cQ k i 1 * cQ k j 1 + cQ k i 2 * cQ k j 2)%Q.
Definition kernelQ (k : stab_kind) (i j : nat) : Q :=
  (1 + 3 * dotQ k i j + (9#2) * (dotQ k i j * dotQ k i j
   + match k with
     | Stab_D2Q9 => - (1#3) * dotQ k i i - (1#3) * dotQ k j j + (2#9)
     | Stab_D2Q9_with_e => - (1#2) * dotQ k i i * dotQ k j j
     | Stab_D3Q19 => - (1#3) * dotQ k i i - (1#3) * dotQ k j j + (1#3)
     end))%Q.

Definition pairs (n : nat) (p : nat -> nat -> bool) : bool := forallb (fun i => forallb (p i) (seq 0 n)) (seq 0 n).
Lemma pairs_sound n p i j : pairs n p = true -> (i < n)%nat -> (j < n)%nat -> p i j = true.
Proof.
  unfold pairs. rewrite forallb_forall. intros H Hi Hj. assert (H1 : forallb (p i) (seq 0 n) = true) by (apply H, in_seq; lia).
  rewrite forallb_forall in H1. apply H1, in_seq. lia.
Qed.

Definition check_kernel (k : stab_kind) : bool := pairs (stab_size k) (fun i j => Qeq_bool (stabQ k i j) (nth i (wtQ k) 0%Q * kernelQ k i j)).
Lemma kernel_checked k : check_kernel k = true.
Proof. destruct k; vm_compute; reflexivity. Qed.

Definition sumQ (n : nat) (f : nat -> Q) : Q := fold_right (fun i s => (f i + s)%Q) 0%Q (seq 0 n).
(** columns: mass, momentum, momentum flux (without the trace for the variant with e) *)
Definition col (k : stab_kind) (phi : nat -> Q) : bool :=
  forallb (fun j => Qeq_bool (sumQ (stab_size k) (fun i => phi i * stabQ k i j)%Q) (phi j)) (seq 0 (stab_size k)).
Definition check_columns (k : stab_kind) : bool :=
  col k (fun _ => 1%Q) && forallb (fun a => col k (fun i => cQ k i a)) (seq 0 (stab_dim k)) &&
  forallb (fun a => forallb (fun b =>
    match k with
    | Stab_D2Q9_with_e => col k (fun i => cQ k i a * cQ k i b - (if Nat.eqb a b then (1#2) * dotQ k i i else 0))%Q
    | _ => col k (fun i => cQ k i a * cQ k i b)%Q
    end) (seq 0 (stab_dim k))) (seq 0 (stab_dim k)).
Lemma columns_checked k : check_columns k = true.
Proof. destruct k; vm_compute; reflexivity. Qed.

(** ** Over the reals *)
Definition c3 (k : stab_kind) (i a : nat) : R := tbl (dirQ k) i a.
Definition w3 (k : stab_kind) (i : nat) : R := wtbl (wtQ k) i.
Definition dot3 (k : stab_kind) (i j : nat) : R := c3 k i 0 * c3 k j 0 + c3 k i 1 * c3 k j 1 + c3 k i 2 * c3 k j 2.
Definition kernel (k : stab_kind) (i j : nat) : R :=
  1 + 3 * dot3 k i j + 9/2 * (dot3 k i j * dot3 k i j
   + match k with
     | Stab_D2Q9 => - (1/3) * dot3 k i i - 1/3 * dot3 k j j + 2/9
     | Stab_D2Q9_with_e => - (1/2) * dot3 k i i * dot3 k j j
     | Stab_D3Q19 => - (1/3) * dot3 k i i - 1/3 * dot3 k j j + 1/3
     end).
Lemma kernel_sym k i j : kernel k i j = kernel k j i.
Proof. unfold kernel, dot3. destruct k; ring. Qed.

Lemma dotQ_ok k i j : Q2R (dotQ k i j) = dot3 k i j.
Proof. unfold dotQ, dot3. rewrite !Q2R_plus, !Q2R_mult. reflexivity. Qed.
Lemma kernelQ_ok k i j : Q2R (kernelQ k i j) = kernel k i j.
Proof.
  unfold kernelQ, kernel.
  assert (E1 : Q2R 1 = 1) by (unfold Q2R; cbn; field). assert (E3 : Q2R 3 = 3) by (unfold Q2R; cbn; field).
  assert (E92 : Q2R (9#2) = 9/2) by (unfold Q2R; cbn; field). assert (E13 : Q2R (1#3) = 1/3) by (unfold Q2R; cbn; field).
  assert (E12 : Q2R (1#2) = 1/2) by (unfold Q2R; cbn; field). assert (E29 : Q2R (2#9) = 2/9) by (unfold Q2R; cbn; field).
  destruct k; repeat (rewrite ?Q2R_plus, ?Q2R_mult, ?Q2R_minus, ?Q2R_opp, ?dotQ_ok, ?E1, ?E3, ?E92, ?E13, ?E12, ?E29); reflexivity.
Qed.

Lemma d_nonzero i j : (i < 9)%nat -> (j < 9)%nat -> ~ (tblQ stab_d i j == 0)%Q.
Proof.
  intros Hi Hj H. assert (C : pairs 9 (fun i j => negb (Qeq_bool (tblQ stab_d i j) 0)) = true) by (vm_compute; reflexivity).
  apply (pairs_sound 9 _ i j) in C; try assumption. cbv beta in C. apply Qeq_bool_iff in H. rewrite H in C. discriminate.
Qed.
Lemma entryQ k i j : (i < stab_size k)%nat -> (j < stab_size k)%nat -> stab_entry k i j = Q2R (stabQ k i j).
Proof.
  intros Hi Hj. destruct k; cbn [stab_entry stabQ]; try reflexivity. rewrite Q2R_div by (apply d_nonzero; assumption). reflexivity.
Qed.
Lemma entry_kernel k i j : (i < stab_size k)%nat -> (j < stab_size k)%nat -> stab_entry k i j = w3 k i * kernel k i j.
Proof.
  intros Hi Hj. rewrite (entryQ k i j Hi Hj). assert (H := kernel_checked k). apply (pairs_sound _ _ i j) in H; try assumption.
  apply Qeq_bool_iff, Qeq_eqR in H. rewrite H, Q2R_mult, kernelQ_ok. reflexivity.
Qed.

Lemma sumQ_ok n f : Q2R (sumQ n f) = sumf n (fun i => Q2R (f i)).
Proof.
  unfold sumQ. assert (G : forall m, Q2R (fold_right (fun i s => (f i + s)%Q) 0%Q (seq m n)) = sumf n (fun i => Q2R (f (m + i)%nat))).
  { induction n as [|n IH]; intros m; cbn [seq fold_right]; [unfold Q2R; cbn; ring|].
    rewrite Q2R_plus, IH, sumf_S_first. f_equal; [f_equal; f_equal; lia|]. apply sumf_ext. intros i _. do 2 f_equal. lia. }
  exact (G 0%nat).
Qed.
Lemma col_sound k phi : col k phi = true -> forall f,
  sumf (stab_size k) (fun i => stabilize k f i * Q2R (phi i)) = sumf (stab_size k) (fun i => f i * Q2R (phi i)).
Proof.
  intros H f. unfold stabilize.
  rewrite (sumf_ext _ _ (fun i => sumf (stab_size k) (fun j => Q2R (phi i) * stab_entry k i j * f j))).
  2:{ intros i Hi. rewrite Rmult_comm, <- sumf_scal. apply sumf_ext. intros. ring. }
  rewrite sumf_swap. apply sumf_ext. intros j Hj. unfold col in H. rewrite forallb_forall in H. specialize (H j). rewrite in_seq in H.
  assert (C := H (conj (Nat.le_0_l j) Hj)). apply Qeq_bool_iff, Qeq_eqR in C. rewrite sumQ_ok in C. rewrite <- C, Rmult_comm, Rmult_comm.
  rewrite <- sumf_scal. apply sumf_ext. intros i Hi. rewrite Q2R_mult, entryQ by assumption. ring.
Qed.
