(** Products and access of the matrix with distributed columns. *)
From Verif Require Import Prelude BigSum ModelSemiParallel SpecSemiParallel.
Local Open Scope R_scope.

Definition comb (a : R) (p q : list R) : list R := map (fun q => fst q + a * snd q) (combine p q).

Lemma combine_app {A B} (p q : list A) (p' q' : list B) : length p = length p' -> combine (p ++ q) (p' ++ q') = combine p p' ++ combine q q'.
Proof. revert p'. induction p as [|x p IH]; intros [|x' p'] H; try discriminate; [reflexivity|]. cbn. f_equal. apply IH. injection H as H. exact H. Qed.

Lemma axpy_concat a u v : alike u v -> concat (axpy a u v) = comb a (concat u) (concat v).
Proof.
  revert v. induction u as [|p u IH]; intros [|q v] H; try discriminate; [reflexivity|]. injection H as H1 H2.
  unfold axpy, comb. cbn. rewrite combine_app by exact H1. rewrite map_app. f_equal. exact (IH v H2).
Qed.
Lemma alike_length u v : alike u v -> length (concat u) = length (concat v).
Proof. revert v. induction u as [|p u IH]; intros [|q v] H; try discriminate; [reflexivity|]. injection H as H1 H2. cbn. rewrite !app_length, H1. f_equal. exact (IH v H2). Qed.
Lemma comb_nth a p q i : length p = length q -> nth i (comb a p q) 0 = nth i p 0 + a * nth i q 0.
Proof.
  revert q i. induction p as [|x p IH]; intros [|y q] i H; try discriminate.
  - destruct i; cbn; ring.
  - injection H as H. destruct i as [|i]; [reflexivity|]. exact (IH q i H).
Qed.
Lemma axpy_entry a u v i : alike u v -> ventry (axpy a u v) i = ventry u i + a * ventry v i.
Proof. intros H. unfold ventry. rewrite axpy_concat by exact H. apply comb_nth, alike_length, H. Qed.
Lemma axpy_alike a u v : alike u v -> alike (axpy a u v) u.
Proof.
  revert v. induction u as [|p u IH]; intros [|q v] H; try discriminate; [reflexivity|]. injection H as H1 H2.
  unfold alike, axpy. cbn. rewrite map_length, combine_length, <- H1, Nat.min_id. f_equal. exact (IH v H2).
Qed.

Lemma zeroed_entry v i : ventry (zeroed v) i = 0.
Proof.
  unfold ventry, zeroed. replace (concat (map (map (fun _ : R => 0)) v)) with (map (fun _ : R => 0) (concat v)) by apply concat_map.
  generalize (concat v). intros l. revert i. induction l as [|x l IH]; intros [|i]; cbn; auto.
Qed.
Lemma zeroed_alike v : alike (zeroed v) v.
Proof. unfold alike, zeroed. rewrite map_map. apply map_ext. intros p. apply map_length. Qed.

Lemma sum_shift M src (i : nat) c a : times_vector (c :: M) (a :: src) i = ventry c i * a + times_vector M src i.
Proof. unfold times_vector. cbn [length]. rewrite sumf_S_first. reflexivity. Qed.

Lemma loop_value M : forall src dst, length src = length M -> (forall c, In c M -> alike c dst) ->
  exists r, vmult_loop M src dst = Ok r /\ alike r dst /\ forall i, ventry r i = ventry dst i + times_vector M src i.
Proof.
  induction M as [|c M IH]; intros [|a src] dst Hl H; try discriminate.
  - exists dst. split; [reflexivity|]. split; [reflexivity|]. intros i. unfold times_vector. cbn. ring.
  - injection Hl as Hl. assert (A : alike dst c) by (symmetry; apply H; left; reflexivity).
    cbn [vmult_loop]. unfold add. destruct (list_eq_dec Nat.eq_dec (shape dst) (shape c)) as [E|E]; [|contradiction].
    destruct (IH src (axpy a dst c) Hl) as (r & E1 & E2 & E3).
    + intros c' Hc. unfold alike. rewrite (axpy_alike a dst c A). apply H. right. exact Hc.
    + exists r. split; [exact E1|]. split; [exact (eq_trans E2 (axpy_alike a dst c A))|].
      intros i. rewrite E3, axpy_entry, sum_shift by exact A. ring.
Qed.
Lemma vmult_value M dst src : length src = length M -> (forall c, In c M -> alike c dst) ->
  exists r, sp_vmult M dst src = Ok r /\ alike r dst /\ forall i, ventry r i = times_vector M src i.
Proof.
  intros Hl H. unfold sp_vmult. rewrite Hl, Nat.eqb_refl.
  destruct (loop_value M src (zeroed dst) Hl) as (r & E1 & E2 & E3).
  - intros c Hc. unfold alike. rewrite (zeroed_alike dst). apply H, Hc.
  - exists r. split; [exact E1|]. split; [exact (eq_trans E2 (zeroed_alike dst))|]. intros i. rewrite E3, zeroed_entry. ring.
Qed.
Lemma vmult_unlike M dst src c : nth_error M 0 = Some c -> ~ alike c dst -> sp_vmult M dst src = Throw.
Proof.
  intros Hc Hn. destruct M as [|c' M]; [discriminate|]. injection Hc as ->. unfold sp_vmult.
  match goal with |- context [Nat.eqb ?a ?b] => destruct (Nat.eqb_spec a b) as [E|]; [|reflexivity] end. destruct src as [|a src]; [discriminate|].
  cbn [vmult_loop]. unfold add. destruct (list_eq_dec Nat.eq_dec (shape (zeroed dst)) (shape c)) as [Q|]; [|reflexivity].
  exfalso. apply Hn. unfold alike. rewrite <- (zeroed_alike dst). symmetry. exact Q.
Qed.

(** Access. *)
Lemma replace_nth i x p k : (i < length p)%nat -> nth k (replace i x p) 0 = if Nat.eqb k i then x else nth k p 0.
Proof. revert i k. induction p as [|y p IH]; intros i k H; [cbn in H; lia|]. destruct i, k; cbn in *; try reflexivity. apply IH. lia. Qed.
Lemma replace_length i x p : length (replace i x p) = length p.
Proof. revert i. induction p as [|y p IH]; intros [|i]; cbn; auto. Qed.
Lemma replace_app_l i x p q : (i < length p)%nat -> replace i x (p ++ q) = replace i x p ++ q.
Proof. revert i. induction p as [|y p IH]; intros i H; [cbn in H; lia|]. destruct i; cbn in *; [reflexivity|]. f_equal. apply IH. lia. Qed.
Lemma replace_app_r i x p q : (length p <= i)%nat -> replace i x (p ++ q) = p ++ replace (i - length p) x q.
Proof. revert i. induction p as [|y p IH]; intros i H; [cbn; rewrite Nat.sub_0_r; reflexivity|]. destruct i; cbn in *; [lia|]. f_equal. apply IH. lia. Qed.
Lemma replace_part_concat v : forall i x, concat (replace_part i x v) = replace i x (concat v).
Proof.
  induction v as [|p v IH]; intros i x; [destruct i; reflexivity|]. cbn -[Nat.ltb]. destruct (Nat.ltb_spec i (length p)) as [L|L]; cbn -[Nat.ltb].
  - rewrite replace_app_l by exact L. reflexivity.
  - rewrite replace_app_r, IH by exact L. reflexivity.
Qed.
Lemma replace_part_alike v : forall i x, alike (replace_part i x v) v.
Proof.
  induction v as [|p v IH]; intros i x; [reflexivity|]. unfold alike. cbn -[Nat.ltb]. destruct (Nat.ltb i (length p)); cbn -[Nat.ltb]; f_equal; [apply replace_length|apply IH].
Qed.
Lemma part_of_alike u : forall v i, alike u v -> part_of i u = part_of i v.
Proof. induction u as [|p u IH]; intros [|q v] i H; try discriminate; [reflexivity|]. injection H as H1 H2. cbn -[Nat.ltb]. rewrite H1. destruct (Nat.ltb i (length q)); [reflexivity|]. rewrite (IH v _ H2). reflexivity. Qed.
Lemma part_of_lt v : forall i p, part_of i v = Some p -> (i < length (concat v))%nat.
Proof.
  induction v as [|q v IH]; intros i p H; [discriminate|]. cbn -[Nat.ltb] in H |- *. rewrite app_length. destruct (Nat.ltb_spec i (length q)); [lia|].
  destruct (part_of (i - length q) v) as [r|] eqn:E; [|discriminate]. apply IH in E. lia.
Qed.
Lemma part_of_ge v : forall i, part_of i v = None -> (length (concat v) <= i)%nat.
Proof.
  induction v as [|q v IH]; intros i H; cbn -[Nat.ltb]; [lia|]. cbn -[Nat.ltb] in H. rewrite app_length. destruct (Nat.ltb_spec i (length q)); [discriminate|].
  destruct (part_of (i - length q) v) as [r|] eqn:E; [discriminate|]. apply IH in E. lia.
Qed.
Lemma available_alike k me i u v : alike u v -> available k me i u = available k me i v.
Proof. intros H. unfold available. rewrite (part_of_alike u v i H). reflexivity. Qed.
Lemma available_lt k me i v : available k me i v = true -> (i < length (concat v))%nat.
Proof. unfold available. destruct (part_of i v) as [p|] eqn:E; [intros _; exact (part_of_lt v i p E)|destruct k; discriminate]. Qed.

Lemma set_nth_spec v : forall M j j', (j < length M)%nat -> nth_error (set_nth j v M) j' = if Nat.eqb j' j then Some v else nth_error M j'.
Proof. induction M as [|c M IH]; intros j j' H; [cbn in H; lia|]. destruct j, j'; cbn in *; try reflexivity. apply IH. lia. Qed.
Lemma set_nth_length v : forall M j, length (set_nth j v M) = length M.
Proof. induction M as [|c M IH]; intros [|j]; cbn; auto. Qed.

Lemma set_get k me i j x M M' : sp_set k me i j x M = Ok M' ->
  sp_get k me i j M' = Ok x /\ length M' = length M /\
  forall me' i' j', (i', j') <> (i, j) -> sp_get k me' i' j' M' = sp_get k me' i' j' M.
Proof.
  unfold sp_set. destruct (nth_error M j) as [c|] eqn:E; [|discriminate]. destruct (available k me i c) eqn:A; [|discriminate]. intros H. injection H as <-.
  assert (Hj : (j < length M)%nat) by (apply nth_error_Some; rewrite E; discriminate). pose proof (available_lt _ _ _ _ A) as Hi.
  split; [|split].
  - unfold sp_get. rewrite set_nth_spec, Nat.eqb_refl by exact Hj. rewrite (available_alike k me i _ c (replace_part_alike c i x)), A.
    rewrite replace_part_concat, replace_nth, Nat.eqb_refl by exact Hi. reflexivity.
  - apply set_nth_length.
  - intros me' i' j' N. unfold sp_get. rewrite set_nth_spec by exact Hj. destruct (Nat.eqb_spec j' j) as [->|]; [|reflexivity].
    rewrite E. rewrite (available_alike k me' i' _ c (replace_part_alike c i x)), replace_part_concat, replace_nth by exact Hi.
    destruct (Nat.eqb_spec i' i) as [->|]; [exfalso; apply N; reflexivity|]. reflexivity.
Qed.

Lemma get_entry k me i j M x : sp_get k me i j M = Ok x -> x = mentry M i j.
Proof.
  unfold sp_get, mentry, ventry. destruct (nth_error M j) as [c|] eqn:E; [|discriminate]. destruct (available k me i c); [|discriminate].
  intros H. injection H as <-. unfold spmatrix, pvec in *. rewrite (nth_error_nth M j [] E). reflexivity.
Qed.

(** Every entry is available on exactly one process. *)
Lemma one_owner c i : (i < length (concat c))%nat -> exists me, available Distributed me i c = true /\ forall me', available Distributed me' i c = true -> me' = me.
Proof.
  intros H. unfold available. destruct (part_of i c) as [p|] eqn:E; [|apply part_of_ge in E; lia].
  exists p. split; [apply Nat.eqb_refl|]. intros me' Q. apply Nat.eqb_eq in Q. symmetry. exact Q.
Qed.

Lemma reinit_alike k prototype n c : k <> Blocks -> In c (sp_reinit k prototype n) -> vsize prototype <> 0%nat -> alike c prototype.
Proof.
  intros Hk Hc Hs. apply repeat_spec in Hc. subst c. unfold reinitVector. apply Nat.eqb_neq in Hs. rewrite Hs.
  unfold alike. rewrite (zeroed_alike _). destruct k; [apply zeroed_alike|contradiction|apply zeroed_alike].
Qed.
Lemma reinit_zero k prototype n i j : mentry (sp_reinit k prototype n) i j = 0.
Proof.
  unfold mentry, sp_reinit. destruct (Nat.lt_ge_cases j n) as [L|L].
  - rewrite nth_indep with (d' := zeroed (reinitVector k prototype)) by (rewrite repeat_length; exact L). rewrite nth_repeat. apply zeroed_entry.
  - rewrite nth_overflow by (rewrite repeat_length; exact L). unfold ventry. destruct i; reflexivity.
Qed.
Lemma reinit_blocks prototype n c : In c (sp_reinit Blocks prototype n) -> vsize prototype <> 0%nat -> map (@length R) c = repeat 1%nat (vsize prototype).
Proof.
  intros Hc Hs. apply repeat_spec in Hc. subst c. unfold reinitVector. apply Nat.eqb_neq in Hs. rewrite Hs. rewrite (zeroed_alike _).
  generalize (vsize prototype). intros m. induction m as [|m IH]; cbn; [reflexivity|]. f_equal. exact IH.
Qed.
