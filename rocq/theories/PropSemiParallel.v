(** C156: matrix with distributed columns. *)
From Verif Require Import Prelude ModelSemiParallel SpecSemiParallel ProofSemiParallel.
Local Open Scope R_scope.

(** Product with a vector: for all sizes, all distributions over processes and whatever the result held before. *)
Theorem C156_product : forall M dst src, length src = length M -> (forall c, In c M -> alike c dst) ->
  exists r, sp_vmult M dst src = Ok r /\ alike r dst /\ forall i, ventry r i = times_vector M src i.
Proof. exact vmult_value. Qed.
Print Assumptions C156_product.
Example C156_product_ex : exists r, sp_vmult [[[1; 2]; [3]]; [[4; 5]; [6]]] [[7; 7]; [7]] [10; 100] = Ok r /\ ventry r 2 = 630.
Proof.
  destruct (C156_product [[[1; 2]; [3]]; [[4; 5]; [6]]] [[7; 7]; [7]] [10; 100] eq_refl) as (r & E & _ & V).
  - intros c [<-|[<-|[]]]; reflexivity.
  - exists r. split; [exact E|]. rewrite V. unfold times_vector, mentry, ventry. cbn. ring.
Qed.

(** Entries: what is set is read, everything else stays, on every process. *)
Theorem C156_entries : forall k me i j x M M', sp_set k me i j x M = Ok M' ->
  sp_get k me i j M' = Ok x /\ length M' = length M /\
  forall me' i' j', (i', j') <> (i, j) -> sp_get k me' i' j' M' = sp_get k me' i' j' M.
Proof. exact set_get. Qed.
Print Assumptions C156_entries.
Example C156_entries_ex : exists M', sp_set Distributed 1 2 0 9 [[[1; 2]; [3]]] = Ok M' /\ sp_get Distributed 1 2 0 M' = Ok 9 /\ sp_get Distributed 0 1 0 M' = Ok 2.
Proof.
  eexists. split; [reflexivity|]. destruct (C156_entries Distributed 1 2 0 9 [[[1; 2]; [3]]] _ eq_refl) as (A & _ & B).
  split; [exact A|]. rewrite B by discriminate. reflexivity.
Qed.

(** Reading gives the entry in row i and column j; of a distributed column every entry is available on one process. *)
Theorem C156_access : forall i j M,
  (forall k me x, sp_get k me i j M = Ok x -> x = mentry M i j) /\
  (forall c, nth_error M j = Some c -> (i < length (concat c))%nat ->
    exists me, sp_get Distributed me i j M = Ok (mentry M i j) /\ forall me', me' <> me -> sp_get Distributed me' i j M = Throw).
Proof.
  intros i j M. split; [intros k me x; exact (get_entry k me i j M x)|]. intros c Hc Hi. destruct (one_owner c i Hi) as (me & A & U).
  exists me. unfold sp_get, mentry, ventry. unfold spmatrix, pvec in *. rewrite Hc, A, (nth_error_nth M j [] Hc). split; [reflexivity|].
  intros me' N. destruct (available Distributed me' i c) eqn:B; [exfalso; exact (N (U me' B))|reflexivity].
Qed.
Print Assumptions C156_access.
Example C156_access_ex : exists me, sp_get Distributed me 2 0 [[[1; 2]; [3]]] = Ok 3.
Proof. destruct (proj2 (C156_access 2 0 [[[1; 2]; [3]]]) [[1; 2]; [3]] eq_refl ltac:(cbn; lia)) as (me & E & _). exists me. exact E. Qed.

(** Columns: what is set is extracted, other columns stay, columns beyond the matrix are refused. *)
Theorem C156_columns : forall j v M,
  ((j < length M)%nat -> exists M', sp_setColumn j v M = Ok M' /\ length M' = length M /\ sp_getColumn j M' = Ok v /\ forall j', j' <> j -> sp_getColumn j' M' = sp_getColumn j' M) /\
  ((length M <= j)%nat -> sp_setColumn j v M = Throw /\ sp_getColumn j M = Throw).
Proof.
  intros j v M. unfold sp_setColumn, sp_getColumn. split; intros H.
  - pose proof H as H'. apply Nat.ltb_lt in H'. rewrite H'. eexists. split; [reflexivity|]. split; [apply set_nth_length|].
    split; [rewrite set_nth_spec, Nat.eqb_refl by exact H; reflexivity|]. intros j' N. apply Nat.eqb_neq in N. rewrite set_nth_spec, N by exact H. reflexivity.
  - split; [apply Nat.ltb_ge in H; rewrite H; reflexivity|]. apply nth_error_None in H. rewrite H. reflexivity.
Qed.
Print Assumptions C156_columns.
Example C156_columns_ex : exists M', sp_setColumn 1 [[5]] [[[1]]; [[2]]; [[3]]] = Ok M' /\ sp_getColumn 1 M' = Ok [[5]] /\ sp_getColumn 2 M' = Ok [[3]].
Proof.
  destruct (proj1 (C156_columns 1 [[5]] [[[1]]; [[2]]; [[3]]]) ltac:(cbn; lia)) as (M' & A & _ & B & C). exists M'. split; [exact A|]. split; [exact B|].
  rewrite C by discriminate. reflexivity.
Qed.

(** A new matrix is zero with the wanted number of columns; except for block vectors its columns have the structure of
    the prototype, so that products into vectors like the prototype work. *)
Theorem C156_new_partial : forall k prototype n, vsize prototype <> 0%nat ->
  length (sp_reinit k prototype n) = n /\ (forall i j, mentry (sp_reinit k prototype n) i j = 0) /\
  (k <> Blocks -> forall c, In c (sp_reinit k prototype n) -> alike c prototype).
Proof.
  intros k prototype n Hs. split; [apply repeat_length|]. split; [exact (reinit_zero k prototype n)|]. intros Hk c Hc. exact (reinit_alike k prototype n c Hk Hc Hs).
Qed.
Print Assumptions C156_new_partial.
Example C156_new_partial_ex : forall c, In c (sp_reinit Distributed [[1; 2]; [3]] 4) -> alike c [[1; 2]; [3]].
Proof. apply (C156_new_partial Distributed [[1; 2]; [3]] 4); cbn; discriminate. Qed.

(** Refuted for block vectors: every column gets blocks of size one, and the product into any vector with a larger
    block is refused. *)
Theorem C156_new_refuted :
  (forall prototype n c, In c (sp_reinit Blocks prototype n) -> vsize prototype <> 0%nat -> map (@length R) c = repeat 1%nat (vsize prototype)) /\
  (forall prototype n src b, In b prototype -> (1 < length b)%nat -> (0 < n)%nat -> sp_vmult (sp_reinit Blocks prototype n) prototype src = Throw) /\
  exists prototype src, vsize prototype <> 0%nat /\ length src = 1%nat /\ sp_vmult (sp_reinit Blocks prototype 1) prototype src = Throw.
Proof.
  assert (T : forall prototype n src b, In b prototype -> (1 < length b)%nat -> (0 < n)%nat -> sp_vmult (sp_reinit Blocks prototype n) prototype src = Throw).
  { intros prototype n src b Hb Hl Hn. destruct n as [|n]; [lia|].
    assert (Hs : vsize prototype <> 0%nat).
    { unfold vsize. apply in_split in Hb. destruct Hb as (l1 & l2 & ->). rewrite concat_app, app_length. cbn. rewrite app_length. lia. }
    apply (vmult_unlike (sp_reinit Blocks prototype (S n)) prototype src (zeroed (reinitVector Blocks prototype)) eq_refl). intros A.
    pose proof (reinit_blocks prototype (S n) (zeroed (reinitVector Blocks prototype)) (or_introl eq_refl) Hs) as B. unfold alike in A. rewrite A in B.
    assert (I : In (length b) (repeat 1%nat (vsize prototype))) by (rewrite <- B; apply in_map, Hb). apply repeat_spec in I. lia. }
  split; [exact reinit_blocks|]. split; [exact T|].
  exists [[1; 2]], [3]. split; [cbn; discriminate|]. split; [reflexivity|]. apply (T [[1; 2]] 1%nat [3] [1; 2]); [left; reflexivity|cbn; lia|lia].
Qed.
Print Assumptions C156_new_refuted.
Example C156_new_refuted_ex : sp_vmult (sp_reinit Blocks [[1]; [2; 3]] 2) [[1]; [2; 3]] [4; 5] = Throw.
Proof. apply (proj1 (proj2 C156_new_refuted) [[1]; [2; 3]] 2%nat [4; 5] [2; 3]); [right; left; reflexivity|cbn; lia|lia]. Qed.
