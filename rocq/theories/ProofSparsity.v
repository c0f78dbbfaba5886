(** The sparsity pattern holds every entry of the assembly. *)
From Coq Require Import Sorting.Sorted Permutation.
From Verif Require Import Prelude ModelStencils SpecStencils ProofStencils ModelSemiLagrangian ModelSEDG SpecSEDG ProofSEDG ModelSparsity SpecSparsity.
Local Open Scope R_scope.

Lemma collect_in {A B} (g : A -> outcome (list B)) l : forall x, collect g l = Ok x -> forall y, In y x <-> exists a ya, In a l /\ g a = Ok ya /\ In y ya.
Proof.
  induction l as [|a l IH]; intros x; cbn [collect].
  - intros E y. injection E as <-. split; [intros []|]. intros (a & ya & [] & _).
  - destruct (g a) as [ya| |] eqn:Ea; try discriminate. cbn [obind]. destruct (collect g l) as [z| |]; try discriminate. cbn [obind]. intros E y. injection E as <-.
    rewrite in_app_iff, (IH z eq_refl y). split.
    + intros [H|(b & yb & Hb & Eb & H)]; [exists a, ya; split; [left; reflexivity|]; auto|exists b, yb; split; [right; exact Hb|]; auto].
    + intros (b & yb & [<-|Hb] & Eb & H); [left; congruence|right; exists b, yb; auto].
Qed.
Lemma collect_total {A B} (g : A -> outcome (list B)) l : (forall a, In a l -> exists x, g a = Ok x) -> exists x, collect g l = Ok x.
Proof.
  induction l as [|a l IH]; intros H; [eexists; reflexivity|]. cbn [collect]. destruct (H a (or_introl eq_refl)) as (x & ->). cbn [obind].
  destruct IH as (y & ->); [intros b Hb; apply H; right; exact Hb|]. eexists; reflexivity.
Qed.

(** ** Entries of the assembly *)
Section Entries.
  Context {cell : Type} (S : space cell) (st : stencil) (central : bool) (velocity : nat -> option (point -> point)).
  Definition face_result (qmap : list (nat * nat)) fmap c a f : outcome (list entry * list (nat * nat * R)) :=
    match at_face S c f with
    | Beyond c' f' => obind (internal_face S st central qmap fmap c a f c' f') (fun x => Ok (x, []))
    | Outside b => match velocity b with Some u => wall_face S st central qmap fmap c a f u | None => Throw end
    end.
  Lemma face_entries_in qmap fmap c a faces : forall x, face_entries S st central velocity qmap fmap c a faces = Ok x ->
    forall e, In e (fst x) <-> exists f r, In f faces /\ face_result qmap fmap c a f = Ok r /\ In e (fst r).
  Proof.
    induction faces as [|f faces IH]; intros x; cbn [face_entries].
    - intros E e. injection E as <-. split; [intros []|]. intros (f & r & [] & _).
    - fold (face_result qmap fmap c a f). destruct (face_result qmap fmap c a f) as [r| |] eqn:Er; try discriminate. cbn [obind].
      destruct (face_entries S st central velocity qmap fmap c a faces) as [y| |]; try discriminate. cbn [obind]. intros E e. injection E as <-. cbn [fst].
      rewrite in_app_iff, (IH y eq_refl e). split.
      + intros [H|(g & s & Hg & Eg & H)]; [exists f, r; split; [left; reflexivity|auto]|exists g, s; split; [right; exact Hg|auto]].
      + intros (g & s & [<-|Hg] & Eg & H); [left; congruence|right; exists g, s; auto].
  Qed.
  Definition cell_in qmap fmap c a (e : entry) : Prop := In e (stiffness_entries S st qmap c a) \/
    exists f r, In f (List.seq 0 (faces_per_cell S)) /\ face_result qmap fmap c a f = Ok r /\ In e (fst r).
  Lemma cell_entries_in qmap fmap c dirs : forall x, cell_entries S st central velocity qmap fmap c dirs = Ok x ->
    forall e, In e (fst x) <-> exists a, In a dirs /\ cell_in qmap fmap c a e.
  Proof.
    induction dirs as [|a dirs IH]; intros x; cbn [cell_entries].
    - intros E e. injection E as <-. split; [intros []|]. intros (a & [] & _).
    - destruct (face_entries S st central velocity qmap fmap c a (List.seq 0 (faces_per_cell S))) as [r| |] eqn:Er; try discriminate. cbn [obind].
      destruct (cell_entries S st central velocity qmap fmap c dirs) as [y| |]; try discriminate. cbn [obind]. intros E e. injection E as <-. cbn [fst].
      rewrite !in_app_iff, (IH y eq_refl e), (face_entries_in qmap fmap c a _ r Er e). split.
      + intros [H|[H|(b & Hb & H)]]; [exists a; split; [left; reflexivity|left; exact H]|exists a; split; [left; reflexivity|right; exact H]|exists b; split; [right; exact Hb|exact H]].
      + intros (b & [<-|Hb] & [H|H]); [left; exact H|right; left; exact H|right; right; exists b; split; [exact Hb|left; exact H]|right; right; exists b; split; [exact Hb|right; exact H]].
  Qed.
  Lemma assemble_in qmap fmap cells : forall x, assemble_cells S st central velocity qmap fmap cells = Ok x ->
    forall e, In e (fst x) <-> exists c a, In c cells /\ In a (List.seq 1 (st_Q st - 1)) /\ cell_in qmap fmap c a e.
  Proof.
    induction cells as [|c cells IH]; intros x; cbn [assemble_cells].
    - intros E e. injection E as <-. split; [intros []|]. intros (c & a & [] & _).
    - destruct (cell_entries S st central velocity qmap fmap c (List.seq 1 (st_Q st - 1))) as [r| |] eqn:Er; try discriminate. cbn [obind].
      destruct (assemble_cells S st central velocity qmap fmap cells) as [y| |]; try discriminate. cbn [obind]. intros E e. injection E as <-. cbn [fst].
      rewrite in_app_iff, (IH y eq_refl e), (cell_entries_in qmap fmap c _ r Er e). split.
      + intros [(a & Ha & H)|(d & a & Hd & Ha & H)]; [exists c, a; split; [left; reflexivity|auto]|exists d, a; split; [right; exact Hd|auto]].
      + intros (d & a & [<-|Hd] & Ha & H); [left; exists a; auto|right; exists d, a; auto].
  Qed.

  Variables (qn : nat -> nat) (fd : nat -> nat -> nat).
  Hypothesis Hco : collocated S qn fd.
  Lemma reassemble_in cells s : reassemble S st central velocity cells empty_system = Ok s ->
    forall e, In e (fst s) <-> exists c a, In c cells /\ In a (List.seq 1 (st_Q st - 1)) /\ cell_in (QM S qn) (FM S fd) c a e.
  Proof.
    unfold reassemble. rewrite (maps_ok S qn fd Hco). cbn [obind fst snd].
    change (fun f => nth f (map (fun f => flat_map (face_pairs S fd f) (List.seq 0 (dofs_per_cell S))) (List.seq 0 (faces_per_cell S))) []) with (FM S fd).
    destruct (assemble_cells S st central velocity (QM S qn) (FM S fd) cells) as [x| |] eqn:E; try discriminate. cbn [obind]. intros H. injection H as <-.
    cbn [fst snd empty_system app]. apply (assemble_in (QM S qn) (FM S fd) cells x E).
  Qed.
  (** Entries of a face between two cells. *)
  Lemma internal_in c a f c' f' x : (f < faces_per_cell S)%nat -> (f' < faces_per_cell S)%nat ->
    internal_face S st central (QM S qn) (FM S fd) c a f c' f' = Ok x -> forall e, In e x <-> exists q, (q < n_face_points S)%nat /\
      let pre := face_JxW S c f q * exn S st c a f q in
      let '(own, other) := if central then (1 / 2 * pre, 1 / 2 * pre) else if Rlt_dec (exn S st c a f q) 0 then (pre, - pre) else (0, 0) in
      In e [((a - 1)%nat, (a - 1)%nat, dof_index S c (fd f q), dof_index S c (fd f q), own * inverse_mass S (QM S qn) c (fd f q));
            ((a - 1)%nat, (a - 1)%nat, dof_index S c (fd f q), dof_index S c' (fd f' q), other * inverse_mass S (QM S qn) c (fd f q))].
  Proof.
    intros Hf Hf' E e. unfold internal_face in E. rewrite (collect_in _ _ _ E e). split.
    - intros (q & y & Hq & Ey & He). apply in_seq in Hq. exists q. split; [lia|]. rewrite !(FM_at S qn fd Hco) in Ey by lia. cbn [obind] in Ey.
      destruct (Rlt_dec 0 (face_shape_value S f (fd f q) q)); [|discriminate]. destruct (Rlt_dec 0 (face_shape_value S f' (fd f' q) q)); [|discriminate].
      cbv zeta in *. destruct central; [|destruct (Rlt_dec (exn S st c a f q) 0)]; injection Ey as <-; exact He.
    - intros (q & Hq & He). cbv zeta in He.
      assert (P : 0 < face_shape_value S f (fd f q) q) by (rewrite (co_face_value _ _ _ Hco) by (try apply (co_face _ _ _ Hco); lia); rewrite Nat.eqb_refl; lra).
      assert (P' : 0 < face_shape_value S f' (fd f' q) q) by (rewrite (co_face_value _ _ _ Hco) by (try apply (co_face _ _ _ Hco); lia); rewrite Nat.eqb_refl; lra).
      exists q. rewrite !(FM_at S qn fd Hco) by lia. cbn [obind].
      destruct (Rlt_dec 0 (face_shape_value S f (fd f q) q)); [|contradiction]. destruct (Rlt_dec 0 (face_shape_value S f' (fd f' q) q)); [|contradiction].
      cbv zeta. destruct central; [|destruct (Rlt_dec (exn S st c a f q) 0)]; eexists; (split; [apply in_seq; lia|]); (split; [reflexivity|exact He]).
  Qed.
End Entries.

(** ** Order of the degrees of freedom of a face *)
Lemma rank_nth l : StronglySorted lt l -> forall x, In x l -> nth_error l (length (List.filter (fun y => Nat.ltb y x) l)) = Some x.
Proof.
  induction 1 as [|y l Hs IH Hy]; intros x Hx; [destruct Hx|]. rewrite Forall_forall in Hy. cbn [List.filter]. destruct Hx as [->|Hx].
  - rewrite Nat.ltb_irrefl. replace (List.filter (fun y => Nat.ltb y x) l) with (@nil nat); [reflexivity|]. symmetry.
    destruct (List.filter (fun y => Nat.ltb y x) l) as [|z r] eqn:E; [reflexivity|]. exfalso.
    assert (I : In z (z :: r)) by (left; reflexivity). rewrite <- E in I. apply filter_In in I. destruct I as [I1 I2]. apply Nat.ltb_lt in I2. specialize (Hy z I1). lia.
  - destruct (Nat.ltb_spec y x) as [L|L]; [|specialize (Hy x Hx); lia]. cbn [length nth_error]. apply IH. exact Hx.
Qed.
Lemma sorted_filter (p : nat -> bool) l : StronglySorted lt l -> StronglySorted lt (List.filter p l).
Proof.
  induction 1 as [|y l Hs IH Hy]; cbn [List.filter]; [constructor|]. destruct (p y); [|exact IH]. constructor; [exact IH|].
  rewrite Forall_forall in *. intros z Hz. apply filter_In in Hz. apply Hy. apply Hz.
Qed.
Lemma sorted_seq n : forall a, StronglySorted lt (List.seq a n).
Proof. induction n as [|n IH]; intros a; cbn [List.seq]; constructor; [apply IH|]. apply Forall_forall. intros z Hz. apply in_seq in Hz. lia. Qed.
Lemma nodup_map_seq (g : nat -> nat) n : (forall q q', (q < n)%nat -> (q' < n)%nat -> g q = g q' -> q = q') -> NoDup (map g (List.seq 0 n)).
Proof.
  intros H. assert (G : forall l, NoDup l -> (forall q, In q l -> (q < n)%nat) -> NoDup (map g l)).
  { induction 1 as [|x l Hx Hl IH]; intros B; cbn [map]; constructor.
    - intros I. apply in_map_iff in I. destruct I as (y & Ey & Hy). apply H in Ey; [|apply B; right; exact Hy|apply B; left; reflexivity]. subst. contradiction.
    - apply IH. intros q Hq. apply B. right. exact Hq. }
  apply G; [apply seq_NoDup|]. intros q Hq. apply in_seq in Hq. lia.
Qed.
Lemma filter_length_perm (p : nat -> bool) l l' : NoDup l -> NoDup l' -> (forall x, In x l <-> In x l') -> length (List.filter p l) = length (List.filter p l').
Proof.
  intros N N' H. apply Permutation_length. apply NoDup_Permutation; [apply NoDup_filter; exact N|apply NoDup_filter; exact N'|].
  intros x. rewrite !filter_In, H. reflexivity.
Qed.
Lemma filter_map_length {A B} (g : A -> B) (p : B -> bool) l : length (List.filter p (map g l)) = length (List.filter (fun x => p (g x)) l).
Proof. induction l as [|x l IH]; [reflexivity|]. cbn [map List.filter]. destruct (p (g x)); cbn [length]; rewrite IH; reflexivity. Qed.
Lemma nth_error_combine_in {A B} (l : list A) (l' : list B) k x y : nth_error l k = Some x -> nth_error l' k = Some y -> In (x, y) (combine l l').
Proof.
  revert l l'. induction k as [|k IH]; intros [|a l] [|b l'] H H'; try discriminate; cbn in *.
  - left. congruence.
  - right. apply IH; assumption.
Qed.

Section Faces.
  Context {cell : Type} (S : space cell) (qn : nat -> nat) (fd : nat -> nat -> nat).
  Hypothesis Hco : collocated S qn fd.
  Notation n := (dofs_per_cell S).
  Notation nf := (n_face_points S).
  Definition at_point (f i : nat) : bool := existsb (fun q => Nat.eqb i (fd f q)) (List.seq 0 nf).
  Lemma face_dofs_ok f : (f < faces_per_cell S)%nat -> face_dofs S f = Ok (List.filter (at_point f) (List.seq 0 n)).
  Proof.
    intros Hf. unfold face_dofs. rewrite (collect_flat _ (fun i => if at_point f i then [i] else [])).
    - f_equal. induction (List.seq 0 n) as [|x l IH]; [reflexivity|]. cbn [flat_map List.filter]. rewrite IH. destruct (at_point f x); reflexivity.
    - intros i Hi. apply in_seq in Hi.
      replace (List.filter _ (List.seq 0 nf)) with (List.filter (fun q => Nat.eqb i (fd f q)) (List.seq 0 nf)).
      + destruct (filter_face S qn fd Hco f i Hf) as [E|(q & Hq & Eq & E)]; rewrite E.
        * replace (at_point f i) with false; [reflexivity|]. symmetry. apply not_true_is_false. intros H. apply existsb_exists in H. destruct H as (q & H).
          apply (proj2 (filter_In (fun q => Nat.eqb i (fd f q)) q (List.seq 0 nf))) in H. rewrite E in H. destruct H.
        * replace (at_point f i) with true; [reflexivity|]. symmetry. apply existsb_exists. exists q. split; [apply in_seq; lia|]. apply Nat.eqb_eq. congruence.
      + apply filter_ext_in. intros q Hq. apply in_seq in Hq. rewrite (co_face_value _ _ _ Hco) by lia. destruct (Nat.eqb i (fd f q)), (Rlt_dec _ _); try reflexivity; lra.
  Qed.
  Lemma face_dofs_in f i : (f < faces_per_cell S)%nat -> In i (List.filter (at_point f) (List.seq 0 n)) <-> In i (map (fd f) (List.seq 0 nf)).
  Proof.
    intros Hf. rewrite filter_In, in_seq, in_map_iff. unfold at_point. rewrite existsb_exists. split.
    - intros (_ & q & Hq & E). apply Nat.eqb_eq in E. exists q. auto.
    - intros (q & <- & Hq). assert (H := Hq). apply in_seq in H. split; [assert (X := co_face _ _ _ Hco f q Hf); lia|]. exists q. split; [exact Hq|apply Nat.eqb_refl].
  Qed.
  Lemma fd_nodup f : (f < faces_per_cell S)%nat -> NoDup (map (fd f) (List.seq 0 nf)).
  Proof. intros Hf. apply nodup_map_seq. intros q q' Hq Hq'. apply (co_face_inj _ _ _ Hco f q q' Hf Hq Hq'). Qed.
  Lemma face_dofs_length f : (f < faces_per_cell S)%nat -> length (List.filter (at_point f) (List.seq 0 n)) = nf.
  Proof.
    intros Hf. transitivity (length (map (fd f) (List.seq 0 nf))); [|rewrite map_length, seq_length; reflexivity]. apply Permutation_length.
    apply NoDup_Permutation; [apply NoDup_filter; apply seq_NoDup|apply fd_nodup; exact Hf|]. intros i. apply face_dofs_in. exact Hf.
  Qed.
  (** The place of a point among the sorted degrees of freedom. *)
  Definition place (f q : nat) : nat := length (List.filter (fun q' => Nat.ltb (fd f q') (fd f q)) (List.seq 0 nf)).
  Lemma face_dofs_nth f q : (f < faces_per_cell S)%nat -> (q < nf)%nat -> nth_error (List.filter (at_point f) (List.seq 0 n)) (place f q) = Some (fd f q).
  Proof.
    intros Hf Hq. unfold place. rewrite <- (filter_map_length (fd f) (fun y => Nat.ltb y (fd f q))).
    rewrite <- (filter_length_perm (fun y => Nat.ltb y (fd f q)) (List.filter (at_point f) (List.seq 0 n)) (map (fd f) (List.seq 0 nf))).
    - apply rank_nth; [apply sorted_filter; apply sorted_seq|]. apply face_dofs_in; [exact Hf|]. apply in_map. apply in_seq. lia.
    - apply NoDup_filter. apply seq_NoDup.
    - apply fd_nodup. exact Hf.
    - intros i. apply face_dofs_in. exact Hf.
  Qed.
  Lemma pairs_ok c f c' f' m : (f < faces_per_cell S)%nat -> (f' < faces_per_cell S)%nat -> pattern_side S m c f = Ok (Some (c', f')) ->
    (forall q q', (q < nf)%nat -> (q' < nf)%nat -> (fd f q < fd f q' <-> fd f' q < fd f' q')%nat) ->
    exists l, face_pattern S m c f = Ok l /\ forall q, (q < nf)%nat -> In (dof_index S c (fd f q), dof_index S c' (fd f' q)) l.
  Proof.
    intros Hf Hf' E Ho. unfold face_pattern. rewrite E. cbn [obind]. rewrite !face_dofs_ok by assumption. cbn [obind]. rewrite !face_dofs_length by assumption.
    rewrite Nat.leb_refl. eexists. split; [reflexivity|]. intros q Hq. apply nth_error_combine_in with (k := place f q).
    - apply map_nth_error. apply face_dofs_nth; assumption.
    - apply map_nth_error. replace (place f q) with (place f' q); [apply face_dofs_nth; assumption|]. unfold place. f_equal. apply filter_ext_in.
      intros q' Hq'. apply in_seq in Hq'. destruct (Nat.ltb_spec (fd f' q') (fd f' q)) as [L|L], (Nat.ltb_spec (fd f q') (fd f q)) as [L'|L']; try reflexivity.
      + apply Ho in L; lia.
      + apply (Ho q' q) in L'; lia.
  Qed.
End Faces.
