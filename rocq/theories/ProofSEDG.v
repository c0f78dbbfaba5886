(** Discontinuous Galerkin operator: the maps between shape functions and points, and the assembled right-hand side. *)
From Verif Require Import Prelude BigSum ModelStencils ModelSemiLagrangian ModelSEDG SpecSEDG.
Local Open Scope R_scope.

(** ** Sums and lists *)
Lemma apply_row_app l l' F a i : apply_row (l ++ l') F a i = apply_row l F a i + apply_row l' F a i.
Proof. unfold apply_row. induction l as [|x l IH]; cbn [app fold_right]; [ring|]. rewrite IH. ring. Qed.
Lemma apply_row_flat {A} (g : A -> list entry) l F a i : apply_row (flat_map g l) F a i = total l (fun x => apply_row (g x) F a i).
Proof. induction l as [|x l IH]; [reflexivity|]. cbn [flat_map total]. rewrite apply_row_app, IH. reflexivity. Qed.
Lemma vector_app l l' a i : vector_value (l ++ l') a i = vector_value l a i + vector_value l' a i.
Proof. unfold vector_value. induction l as [|x l IH]; cbn [app fold_right]; [ring|]. rewrite IH. ring. Qed.
Lemma vector_map {A} (g : A -> nat * nat * R) l a i : vector_value (map g l) a i = total l (fun x => vector_value [g x] a i).
Proof. induction l as [|x l IH]; [reflexivity|]. cbn [map total]. rewrite <- IH. unfold vector_value. cbn [fold_right]. ring. Qed.
Lemma total_ext {A} (l : list A) g h : (forall x, In x l -> g x = h x) -> total l g = total l h.
Proof. induction l as [|x l IH]; intros H; [reflexivity|]. cbn [total]. rewrite (H x (or_introl eq_refl)), IH; [reflexivity|]. intros y Hy. apply H. right. exact Hy. Qed.
Lemma total_zero {A} (l : list A) g : (forall x, In x l -> g x = 0) -> total l g = 0.
Proof. intros H. rewrite (total_ext l g (fun _ => 0)) by exact H. clear H. induction l as [|x l IH]; cbn [total]; [reflexivity|]. rewrite IH. ring. Qed.
Lemma total_app {A} (l l' : list A) g : total (l ++ l') g = total l g + total l' g.
Proof. induction l as [|x l IH]; cbn [app total]; [ring|]. rewrite IH. ring. Qed.
Lemma total_plus {A} (l : list A) g h : total l (fun x => g x + h x) = total l g + total l h.
Proof. induction l as [|x l IH]; cbn [total]; [ring|]. rewrite IH. ring. Qed.
Lemma total_scal {A} (l : list A) c g : total l (fun x => c * g x) = c * total l g.
Proof. induction l as [|x l IH]; cbn [total]; [ring|]. rewrite IH. ring. Qed.
Lemma total_seq n g : total (List.seq 0 n) g = sumf n g.
Proof.
  induction n as [|n IH]; [reflexivity|]. rewrite seq_S, total_app, IH. cbn [total sumf Nat.add]. ring.
Qed.
(** One term at most. *)
Lemma total_one {A} (l : list A) g x0 : NoDup l -> In x0 l -> (forall x, In x l -> x <> x0 -> g x = 0) -> total l g = g x0.
Proof.
  induction l as [|x l IH]; intros Hn Hi Hz; [destruct Hi|]. inversion Hn as [|y r Hx Hn']; subst. cbn [total]. destruct Hi as [->|Hi].
  - rewrite (total_zero l); [ring|]. intros y Hy. apply Hz; [right; exact Hy|]. intros ->. contradiction.
  - rewrite IH; auto; [|intros y Hy; apply Hz; right; exact Hy]. rewrite (Hz x (or_introl eq_refl)); [ring|]. intros ->. contradiction.
Qed.
Lemma sumf_one n i g : (i < n)%nat -> sumf n (fun j => if Nat.eqb i j then g j else 0) = g i.
Proof.
  intros H. rewrite <- total_seq. rewrite (total_one (List.seq 0 n) _ i); [rewrite Nat.eqb_refl; reflexivity|apply seq_NoDup|apply in_seq; lia|].
  intros x _ Hx. destruct (Nat.eqb_spec i x) as [->|]; [contradiction|reflexivity].
Qed.

Lemma collect_flat {A B} (g : A -> outcome (list B)) h l : (forall x, In x l -> g x = Ok (h x)) -> collect g l = Ok (flat_map h l).
Proof.
  induction l as [|x l IH]; intros H; [reflexivity|]. cbn [collect flat_map]. rewrite (H x (or_introl eq_refl)). cbn [obind].
  rewrite IH by (intros y Hy; apply H; right; exact Hy). reflexivity.
Qed.

Section Maps.
  Context {cell : Type} (S : space cell) (qn : nat -> nat) (fd : nat -> nat -> nat).
  Hypothesis Hco : collocated S qn fd.
  Notation n := (dofs_per_cell S).
  Notation nq := (n_quadrature_points S).
  Notation nf := (n_face_points S).

  Lemma filter_one m q0 : (q0 < m)%nat -> List.filter (Nat.eqb q0) (List.seq 0 m) = [q0].
  Proof.
    intros H. induction m as [|m IH]; [lia|]. rewrite seq_S, filter_app. cbn [Nat.add List.filter].
    destruct (Nat.eqb_spec q0 m) as [->|N].
    - replace (List.filter (Nat.eqb m) (List.seq 0 m)) with (@nil nat); [reflexivity|]. symmetry.
      destruct (List.filter (Nat.eqb m) (List.seq 0 m)) as [|x r] eqn:E; [reflexivity|]. exfalso.
      assert (I : In x (List.filter (Nat.eqb m) (List.seq 0 m))) by (rewrite E; left; reflexivity). apply filter_In in I. destruct I as [I1 I2].
      apply in_seq in I1. apply Nat.eqb_eq in I2. lia.
    - rewrite IH by lia. reflexivity.
  Qed.

  Lemma above_indicator v m p : (forall q, (q < m)%nat -> v q = if (p q : bool) then 1 else 0) -> above v m = Ok (List.filter p (List.seq 0 m)).
  Proof.
    intros H. unfold above.
    assert (E : List.filter (fun q => if Rlt_dec (1 / 10 ^ 10) (v q) then true else false) (List.seq 0 m) = List.filter p (List.seq 0 m)).
    { apply filter_ext_in. intros q Hq. apply in_seq in Hq. rewrite (H q) by lia. destruct (p q), (Rlt_dec _ _); try reflexivity; lra. }
    rewrite E. replace (forallb _ _) with true; [reflexivity|]. symmetry. apply forallb_forall. intros q Hq. apply filter_In in Hq. destruct Hq as [Hq Hp].
    apply in_seq in Hq. rewrite (H q) by lia. rewrite Hp. destruct (Rlt_dec _ _) as [|N]; [reflexivity|]. elim N.
    replace (1 - 1) with 0 by ring. rewrite Rabs_R0. lra.
  Qed.

  Lemma celldofs : map_celldofs_to_q_index S = Ok (map (fun i => (i, qn i)) (List.seq 0 n)).
  Proof.
    unfold map_celldofs_to_q_index. rewrite (collect_flat _ (fun i => [(i, qn i)])).
    - reflexivity.
    - intros i Hi. apply in_seq in Hi. rewrite (above_indicator _ _ (Nat.eqb (qn i))).
      + cbn [obind]. rewrite filter_one by (apply (co_point _ _ _ Hco); lia). reflexivity.
      + intros q Hq. rewrite (co_value _ _ _ Hco) by lia. rewrite Nat.eqb_sym. reflexivity.
  Qed.
  Lemma at_map (g : nat -> nat) m i : (i < m)%nat -> map_at (map (fun i => (i, g i)) (List.seq 0 m)) i = Ok (g i).
  Proof.
    intros H. unfold map_at. replace (List.find _ _) with (Some (i, g i)); [reflexivity|]. symmetry.
    assert (G : forall l, In i l -> List.find (fun p => Nat.eqb (fst p) i) (map (fun i => (i, g i)) l) = Some (i, g i)).
    { induction l as [|x l IH]; intros Hl; [destruct Hl|]. cbn [map List.find fst]. destruct (Nat.eqb_spec x i) as [->|N]; [reflexivity|].
      destruct Hl as [->|Hl]; [contradiction|]. apply IH. exact Hl. }
    apply G. apply in_seq. lia.
  Qed.
  Lemma q_of_dof i : (i < n)%nat -> q_of (map (fun i => (i, qn i)) (List.seq 0 n)) i = qn i.
  Proof. intros H. unfold q_of. rewrite at_map by exact H. reflexivity. Qed.

  (** The map of a face: for every shape function the point it belongs to. *)
  Definition face_pairs (f i : nat) : list (nat * nat) := map (fun q => (q, i)) (List.filter (fun q => Nat.eqb i (fd f q)) (List.seq 0 nf)).
  Lemma filter_face f i : (f < faces_per_cell S)%nat ->
    List.filter (fun q => Nat.eqb i (fd f q)) (List.seq 0 nf) = [] \/ exists q, (q < nf)%nat /\ fd f q = i /\ List.filter (fun q => Nat.eqb i (fd f q)) (List.seq 0 nf) = [q].
  Proof.
    intros Hf. destruct (List.filter (fun q => Nat.eqb i (fd f q)) (List.seq 0 nf)) as [|q r] eqn:E; [left; reflexivity|right].
    assert (I : forall x, In x (q :: r) -> (x < nf)%nat /\ fd f x = i).
    { intros x Hx. rewrite <- E in Hx. apply filter_In in Hx. destruct Hx as [H1 H2]. apply in_seq in H1. apply Nat.eqb_eq in H2. split; [lia|congruence]. }
    destruct (I q (or_introl eq_refl)) as [Hq Ei]. exists q. split; [exact Hq|]. split; [exact Ei|].
    assert (Nd : NoDup (q :: r)) by (rewrite <- E; apply NoDup_filter; apply seq_NoDup).
    destruct r as [|q' r]; [reflexivity|]. exfalso. destruct (I q' (or_intror (or_introl eq_refl))) as [Hq' Ei'].
    assert (q = q') by (apply (co_face_inj _ _ _ Hco f); congruence). subst q'. inversion Nd as [|? ? X _]; subst. apply X. left. reflexivity.
  Qed.
  Lemma in_pairs f q i : In (q, i) (flat_map (face_pairs f) (List.seq 0 n)) <-> (q < nf)%nat /\ (i < n)%nat /\ fd f q = i.
  Proof.
    rewrite in_flat_map. split.
    - intros (x & Hx & Hp). apply in_seq in Hx. unfold face_pairs in Hp. apply in_map_iff in Hp. destruct Hp as (y & Ey & Hy). apply filter_In in Hy.
      destruct Hy as [Hy1 Hy2]. apply in_seq in Hy1. apply Nat.eqb_eq in Hy2. assert (y = q) by congruence. assert (x = i) by congruence. subst. split; [lia|]. split; [lia|congruence].
    - intros (Hq & Hi & <-). exists (fd f q). split; [apply in_seq; lia|]. unfold face_pairs. apply in_map_iff. exists q. split; [reflexivity|].
      apply filter_In. split; [apply in_seq; lia|apply Nat.eqb_refl].
  Qed.
  Lemma facedofs f : (f < faces_per_cell S)%nat -> map_q_index_to_facedofs S f = Ok (flat_map (face_pairs f) (List.seq 0 n)).
  Proof.
    intros Hf. unfold map_q_index_to_facedofs. rewrite (collect_flat _ (face_pairs f)).
    - cbn [obind]. replace (length _) with nf; [rewrite Nat.eqb_refl; reflexivity|].
      rewrite <- (seq_length nf 0) at 1.
      assert (P : forall q, In q (nodup Nat.eq_dec (map fst (flat_map (face_pairs f) (List.seq 0 n)))) <-> In q (List.seq 0 nf)).
      { intros q. rewrite nodup_In, in_map_iff, in_seq. split.
        - intros ([q' i] & <- & H). apply in_pairs in H. cbn [fst]. lia.
        - intros H. exists (q, fd f q). split; [reflexivity|]. apply in_pairs. split; [lia|]. split; [apply (co_face _ _ _ Hco); lia|reflexivity]. }
      apply Nat.le_antisymm.
      + apply NoDup_incl_length; [apply seq_NoDup|]. intros q Hq. apply P. exact Hq.
      + apply NoDup_incl_length; [apply NoDup_nodup|]. intros q Hq. apply P. exact Hq.
    - intros i Hi. apply in_seq in Hi. rewrite (above_indicator _ _ (fun q => Nat.eqb i (fd f q))).
      + cbn [obind]. unfold face_pairs. destruct (filter_face f i Hf) as [-> | (q & _ & _ & ->)]; reflexivity.
      + intros q Hq. apply (co_face_value _ _ _ Hco); lia.
  Qed.
  Lemma at_face_map f q : (f < faces_per_cell S)%nat -> (q < nf)%nat -> map_at (flat_map (face_pairs f) (List.seq 0 n)) q = Ok (fd f q).
  Proof.
    intros Hf Hq. unfold map_at. destruct (List.find _ _) as [[q' i]|] eqn:E.
    - apply find_some in E. destruct E as [E1 E2]. cbn [fst] in E2. apply Nat.eqb_eq in E2. subst q'. apply in_pairs in E1. destruct E1 as (_ & _ & <-). reflexivity.
    - exfalso. assert (N := find_none _ _ E (q, fd f q)). cbn [fst] in N. rewrite Nat.eqb_refl in N. discriminate N. apply in_pairs.
      split; [exact Hq|]. split; [apply (co_face _ _ _ Hco); assumption|reflexivity].
  Qed.

  Definition QM := map (fun i => (i, qn i)) (List.seq 0 n).
  Definition FM (f : nat) : list (nat * nat) := nth f (map (fun f => flat_map (face_pairs f) (List.seq 0 n)) (List.seq 0 (faces_per_cell S))) [].
  Lemma maps_ok : maps S = Ok (QM, map (fun f => flat_map (face_pairs f) (List.seq 0 n)) (List.seq 0 (faces_per_cell S))).
  Proof.
    unfold maps. rewrite celldofs. cbn [obind]. rewrite (collect_flat _ (fun f => [flat_map (face_pairs f) (List.seq 0 n)])).
    - cbn [obind]. reflexivity.
    - intros f Hf. apply in_seq in Hf. rewrite facedofs by lia. reflexivity.
  Qed.
  Lemma FM_at f q : (f < faces_per_cell S)%nat -> (q < nf)%nat -> map_at (FM f) q = Ok (fd f q).
  Proof.
    intros Hf Hq. unfold FM. rewrite (nth_indep _ _ (flat_map (face_pairs 0) (List.seq 0 n))) by (rewrite map_length, seq_length; exact Hf).
    rewrite map_nth with (f := fun f => flat_map (face_pairs f) (List.seq 0 n)), seq_nth by exact Hf. cbn [Nat.add]. apply at_face_map; assumption.
  Qed.
End Maps.
