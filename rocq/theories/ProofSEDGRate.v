(** Discontinuous Galerkin operator: the right-hand side at a node. *)
From Verif Require Import Prelude BigSum ModelStencils ModelSemiLagrangian ModelSEDG SpecSEDG ProofSEDG.
Local Open Scope R_scope.

Lemma apply_row_zero l F a i : (forall e, In e l -> entry_term F a i e = 0) -> apply_row l F a i = 0.
Proof. unfold apply_row. induction l as [|e l IH]; intros H; [reflexivity|]. cbn [fold_right]. rewrite (H e (or_introl eq_refl)), IH; [ring|]. intros x Hx. apply H. right. exact Hx. Qed.
Lemma total_filter {A} (p : A -> bool) l g : total (List.filter p l) g = total l (fun x => if p x then g x else 0).
Proof. induction l as [|x l IH]; [reflexivity|]. cbn [List.filter total]. destruct (p x); cbn [total]; rewrite IH; ring. Qed.
Lemma apply_row_map {A} (g : A -> entry) l F a i : apply_row (map g l) F a i = total l (fun x => entry_term F a i (g x)).
Proof. induction l as [|x l IH]; [reflexivity|]. cbn [map total]. rewrite <- IH. reflexivity. Qed.

Section Rate.
  Context {cell : Type} (S : space cell) (qn : nat -> nat) (fd : nat -> nat -> nat) (st : stencil) (central : bool)
          (velocity : nat -> option (point -> point)) (cells : list cell).
  Hypothesis G : good_mesh S qn fd cells.
  Hypothesis Hsup : supported S velocity cells.
  Hypothesis Hopp : forall a, (1 <= a < st_Q st)%nat -> exists b, st_opp st a = Some b /\ (1 <= b < st_Q st)%nat.
  Notation n := (dofs_per_cell S).
  Notation nf := (n_face_points S).
  Let Hco := gm_collocated _ _ _ _ G.
  Notation QMx := (QM S qn).
  Notation FMx := (FM S fd).

  Lemma mass_value c i : (i < n)%nat -> mass_matrix S QMx c i = volume S qn c i.
  Proof.
    intros H. unfold mass_matrix, volume. rewrite (q_of_dof S qn) by exact H. rewrite (co_value _ _ _ Hco) by (try apply (co_point _ _ _ Hco); exact H).
    rewrite Nat.eqb_refl. ring.
  Qed.
  Lemma inverse_value c i : (i < n)%nat -> inverse_mass S QMx c i = 1 / volume S qn c i.
  Proof. intros H. unfold inverse_mass. rewrite mass_value by exact H. reflexivity. Qed.
  Lemma volume_pos c i : In c cells -> (i < n)%nat -> 0 < volume S qn c i.
  Proof. intros Hc H. apply (gm_volume _ _ _ _ G c _ Hc). apply (co_point _ _ _ Hco). exact H. Qed.
  Lemma derivative_value c k i j : (i < n)%nat -> derivative_matrix S QMx c k i j = shape_grad S c j (qn i) k * volume S qn c i.
  Proof.
    intros H. unfold derivative_matrix, volume. rewrite (q_of_dof S qn) by exact H. rewrite (co_value _ _ _ Hco) by (try apply (co_point _ _ _ Hco); exact H).
    rewrite Nat.eqb_refl. ring.
  Qed.
  Lemma local_value c e i j : (i < n)%nat -> local_system_matrix S QMx c e i j = - (sumf (sp_dim S) (fun k => e k * shape_grad S c j (qn i) k)) * volume S qn c i.
  Proof.
    intros H. unfold local_system_matrix. destruct (gm_dim _ _ _ _ G) as [D|D]; rewrite D; cbn [sumf]; rewrite !derivative_value by exact H; ring.
  Qed.

  (** What a face adds: coefficients of the own value, of the value behind the face and of nothing. *)
  Definition coefficients (x p : R) : R * R := if central then (1 / 2 * p, 1 / 2 * p) else if Rlt_dec x 0 then (p, - p) else (0, 0).
  Definition own a c f q : R := fst (coefficients (outward S st a c f q) (face_JxW S c f q * outward S st a c f q)).
  Definition far a c f q : R := snd (coefficients (outward S st a c f q) (face_JxW S c f q * outward S st a c f q)).
  (** The shift of a moving wall enters with the upwind sign in both branches. *)
  Definition shift u a c f q : R := (if central then - own a c f q else far a c f q) * wall_shift S st (u (face_point S c f q)) a.
  Definition wall_value (u : point -> point) (a : nat) (c : cell) (f q : nat) : R * R * R := (own a c f q, far a c f q, shift u a c f q).

  Definition internal_pure a c f c' f' : list entry := flat_map (fun q =>
    [((a - 1)%nat, (a - 1)%nat, dof_index S c (fd f q), dof_index S c (fd f q), own a c f q * inverse_mass S QMx c (fd f q));
     ((a - 1)%nat, (a - 1)%nat, dof_index S c (fd f q), dof_index S c' (fd f' q), far a c f q * inverse_mass S QMx c (fd f q))]) (List.seq 0 nf).
  Lemma internal_ok a c f c' f' : (f < faces_per_cell S)%nat -> (f' < faces_per_cell S)%nat ->
    internal_face S st central QMx FMx c a f c' f' = Ok (internal_pure a c f c' f').
  Proof.
    intros Hf Hf'. unfold internal_face, internal_pure. apply collect_flat. intros q Hq. apply in_seq in Hq.
    rewrite (FM_at S qn fd Hco f) by lia. rewrite (FM_at S qn fd Hco f') by lia. cbn [obind].
    rewrite !(co_face_value _ _ _ Hco) by (try apply (co_face _ _ _ Hco); lia). rewrite !Nat.eqb_refl.
    destruct (Rlt_dec 0 1) as [_|N]; [|lra]. unfold own, far, coefficients.
    change (exn S st c a f q) with (outward S st a c f q). destruct central; [reflexivity|]. destruct (Rlt_dec (outward S st a c f q) 0); reflexivity.
  Qed.

  Lemma wall_loop a c f u : (f < faces_per_cell S)%nat -> st_cs2 st <> 0 -> forall qs arr, NoDup qs -> (forall q, In q qs -> (q < nf)%nat) -> (forall q, In q qs -> arr (fd f q) = (0, 0, 0)) ->
    exists arr', wall_arrays S st central FMx c a f u qs arr = Ok arr' /\ (forall q, In q qs -> arr' (fd f q) = wall_value u a c f q) /\
      (forall i, (forall q, In q qs -> fd f q <> i) -> arr' i = arr i).
  Proof.
    intros Hf Hs. induction qs as [|q r IH]; intros arr Hn Hq Hz.
    { exists arr. split; [reflexivity|]. split; [intros q []|reflexivity]. }
    inversion Hn as [|? ? Hx Hr]; subst. cbn [wall_arrays]. rewrite (FM_at S qn fd Hco f) by (try exact Hf; apply Hq; left; reflexivity). cbn [obind].
    assert (Inj : forall q', In q' r -> fd f q' <> fd f q).
    { intros q' H' E. apply Hx. replace q with q'; [exact H'|]. apply (co_face_inj _ _ _ Hco f); auto; apply Hq; [right; exact H'|left; reflexivity]. }
    match goal with |- context [wall_arrays _ _ _ _ _ _ _ _ r ?A] => set (arr1 := A) end.
    assert (A1 : arr1 (fd f q) = wall_value u a c f q /\ forall i, fd f q <> i -> arr1 i = arr i).
    { unfold arr1, wall_value, shift, own, far, coefficients, wall_shift. change (exn S st c a f q) with (outward S st a c f q). destruct central.
      - cbn [fst snd]. split; [rewrite Nat.eqb_refl; f_equal; field; exact Hs|]. intros i N. destruct (Nat.eqb_spec i (fd f q)); [congruence|reflexivity].
      - destruct (Rlt_dec (outward S st a c f q) 0) as [L|L]; cbn [fst snd].
        + split; [rewrite Nat.eqb_refl; f_equal; field; exact Hs|]. intros i N. destruct (Nat.eqb_spec i (fd f q)); [congruence|reflexivity].
        + split; [|reflexivity]. rewrite Hz by (left; reflexivity). f_equal. ring. }
    destruct A1 as [A1 A2]. destruct (IH arr1 Hr) as (arr' & E & V & O).
    { intros q' H'. apply Hq. right. exact H'. }
    { intros q' H'. rewrite A2 by (intros X; apply (Inj q' H'); congruence). apply Hz. right. exact H'. }
    exists arr'. split; [exact E|]. split.
    - intros q' [<-|H']; [|apply V; exact H']. rewrite O by exact Inj. exact A1.
    - intros i H'. rewrite O by (intros q' Hq'; apply H'; right; exact Hq'). apply A2. apply H'. left. reflexivity.
  Qed.

  Definition contribution (F : nat -> nat -> R) (a : nat) (c : cell) (f q : nat) : R :=
    match at_face S c f with
    | Beyond c' f' => own a c f q * F a (dof_index S c (fd f q)) + far a c f q * F a (dof_index S c' (fd f' q))
    | Outside b => match velocity b with
                   | Some u => own a c f q * F a (dof_index S c (fd f q)) + far a c f q * F (opposite st a) (dof_index S c (fd f q)) + shift u a c f q
                   | None => 0
                   end
    end.

  Section Row.
    Variables (F : nat -> nat -> R) (c0 : cell) (i0 a0 : nat).
    Hypotheses (Hc0 : In c0 cells) (Hi0 : (i0 < n)%nat) (Ha0 : (1 <= a0)%nat).
    Notation row := (dof_index S c0 i0).
    Notation F' := (fun b j => F (Datatypes.S b) j).

    Lemma term_in i b j v : (i < n)%nat -> entry_term F' (a0 - 1) row ((a0 - 1)%nat, b, dof_index S c0 i, j, v) = if Nat.eqb i0 i then v * F (Datatypes.S b) j else 0.
    Proof.
      intros Hi. unfold entry_term. rewrite Nat.eqb_refl. cbn [andb]. destruct (Nat.eqb_spec i0 i) as [->|N]; [rewrite Nat.eqb_refl; reflexivity|].
      destruct (Nat.eqb_spec row (dof_index S c0 i)) as [E|]; [|reflexivity]. apply (gm_numbered _ _ _ _ G) in E; auto. destruct E. contradiction.
    Qed.
    Lemma term_out a c i b j v : In c cells -> (1 <= a)%nat -> (i < n)%nat -> c <> c0 \/ a <> a0 ->
      entry_term F' (a0 - 1) row ((a - 1)%nat, b, dof_index S c i, j, v) = 0.
    Proof.
      intros Hc Ha Hi N. unfold entry_term. destruct (Nat.eqb_spec (a0 - 1) (a - 1)) as [E1|]; [|reflexivity].
      destruct (Nat.eqb_spec row (dof_index S c i)) as [E|]; [|reflexivity]. apply (gm_numbered _ _ _ _ G) in E; auto. destruct E as [E _].
      exfalso. destruct N as [N|N]; [congruence|lia].
    Qed.
    Lemma vterm_in i v : (i < n)%nat -> vector_value [((a0 - 1)%nat, dof_index S c0 i, v)] (a0 - 1) row = if Nat.eqb i0 i then v else 0.
    Proof.
      intros Hi. unfold vector_value. cbn [fold_right]. rewrite Nat.eqb_refl. cbn [andb]. destruct (Nat.eqb_spec i0 i) as [->|N]; [rewrite Nat.eqb_refl; ring|].
      destruct (Nat.eqb_spec row (dof_index S c0 i)) as [E|]; [|ring]. apply (gm_numbered _ _ _ _ G) in E; auto. destruct E. contradiction.
    Qed.
    Lemma vterm_out a c i v : In c cells -> (1 <= a)%nat -> (i < n)%nat -> c <> c0 \/ a <> a0 -> vector_value [((a - 1)%nat, dof_index S c i, v)] (a0 - 1) row = 0.
    Proof.
      intros Hc Ha Hi N. unfold vector_value. cbn [fold_right]. destruct (Nat.eqb_spec (a0 - 1) (a - 1)) as [E1|]; [|cbn [andb]; ring].
      destruct (Nat.eqb_spec row (dof_index S c i)) as [E|]; [|cbn [andb]; ring]. apply (gm_numbered _ _ _ _ G) in E; auto. destruct E as [E _].
      exfalso. destruct N as [N|N]; [congruence|lia].
    Qed.

    Lemma rate_pair x y : rate (fst x ++ fst y, snd x ++ snd y) F a0 row = rate x F a0 row + rate y F a0 row.
    Proof. unfold rate. cbn [fst snd]. rewrite apply_row_app, vector_app. ring. Qed.
    Lemma rate_empty : rate ([], []) F a0 row = 0.
    Proof. unfold rate, apply_row, vector_value. cbn [fst snd fold_right]. ring. Qed.

    Lemma stiffness_in : rate (stiffness_entries S st QMx c0 a0, []) F a0 row = - sumf (sp_dim S) (fun k => st_e st a0 k * slope S qn c0 (fun j => F a0 (dof_index S c0 j)) i0 k).
    Proof.
      unfold rate. cbn [fst snd]. unfold stiffness_entries. rewrite apply_row_flat, total_seq.
      rewrite (sumf_ext n _ (fun j => if Nat.eqb i0 j then sumf n (fun k => local_system_matrix S QMx c0 (st_e st a0) j k * inverse_mass S QMx c0 j * F a0 (dof_index S c0 k)) else 0)).
      - rewrite sumf_one by exact Hi0. unfold vector_value. cbn [fold_right].
        rewrite (sumf_ext n _ (fun k => - sumf (sp_dim S) (fun k' => st_e st a0 k' * (F a0 (dof_index S c0 k) * shape_grad S c0 k (qn i0) k')))).
        + rewrite sumf_opp, sumf_swap. rewrite Rplus_0_r. f_equal. apply sumf_ext. intros k Hk. unfold slope. rewrite sumf_scal. reflexivity.
        + intros k Hk. rewrite local_value, inverse_value by assumption. assert (V := volume_pos c0 i0 Hc0 Hi0).
          replace (- sumf (sp_dim S) (fun k0 => st_e st a0 k0 * shape_grad S c0 k (qn i0) k0) * volume S qn c0 i0 * (1 / volume S qn c0 i0) * F a0 (dof_index S c0 k))
            with (- (F a0 (dof_index S c0 k) * sumf (sp_dim S) (fun k0 => st_e st a0 k0 * shape_grad S c0 k (qn i0) k0))) by (field; lra).
          rewrite <- sumf_scal. f_equal. apply sumf_ext. intros k' Hk'. ring.
      - intros j Hj. rewrite apply_row_map, total_seq.
        rewrite (sumf_ext n _ (fun k => if Nat.eqb i0 j then local_system_matrix S QMx c0 (st_e st a0) j k * inverse_mass S QMx c0 j * F a0 (dof_index S c0 k) else 0)).
        + destruct (Nat.eqb i0 j); [reflexivity|apply sumf_0].
        + intros k Hk. rewrite term_in by exact Hj. replace (Datatypes.S (a0 - 1)) with a0 by lia. reflexivity.
    Qed.
    Lemma stiffness_out a c : In c cells -> (1 <= a)%nat -> c <> c0 \/ a <> a0 -> rate (stiffness_entries S st QMx c a, []) F a0 row = 0.
    Proof.
      intros Hc Ha N. unfold rate. cbn [fst snd]. rewrite apply_row_zero; [unfold vector_value; cbn [fold_right]; ring|].
      intros e He. unfold stiffness_entries in He. apply in_flat_map in He. destruct He as (j & Hj & He). apply in_seq in Hj. apply in_map_iff in He.
      destruct He as (k & <- & Hk). apply term_out; auto; lia.
    Qed.

    Lemma internal_in f c' f' : (f < faces_per_cell S)%nat -> at_face S c0 f = Beyond c' f' ->
      rate (internal_pure a0 c0 f c' f', []) F a0 row = 1 / volume S qn c0 i0 * sumf nf (fun q => if Nat.eqb i0 (fd f q) then contribution F a0 c0 f q else 0).
    Proof.
      intros Hf E. unfold rate. cbn [fst snd]. unfold internal_pure. rewrite apply_row_flat, total_seq. unfold vector_value. cbn [fold_right]. rewrite Rplus_0_r, <- sumf_scal.
      apply sumf_ext. intros q Hq. unfold apply_row. cbn [fold_right]. assert (I := co_face _ _ _ Hco f q Hf Hq). rewrite !term_in by exact I. replace (Datatypes.S (a0 - 1)) with a0 by lia.
      unfold contribution. rewrite E. destruct (Nat.eqb_spec i0 (fd f q)) as [->|N]; [|ring]. rewrite inverse_value by exact I. ring.
    Qed.
    Lemma internal_out a c f c' f' : (f < faces_per_cell S)%nat -> In c cells -> (1 <= a)%nat -> c <> c0 \/ a <> a0 -> rate (internal_pure a c f c' f', []) F a0 row = 0.
    Proof.
      intros Hf Hc Ha N. unfold rate. cbn [fst snd]. rewrite apply_row_zero; [unfold vector_value; cbn [fold_right]; ring|].
      intros e He. unfold internal_pure in He. apply in_flat_map in He. destruct He as (q & Hq & He). apply in_seq in Hq.
      assert (I : (fd f q < n)%nat) by (apply (co_face _ _ _ Hco); lia). destruct He as [<-|[<-|[]]]; apply term_out; assumption.
    Qed.

    Hypothesis Hcs : st_cs2 st <> 0.
    Lemma wall_ok a c f b u : In c cells -> (f < faces_per_cell S)%nat -> at_face S c f = Outside b -> velocity b = Some u -> (1 <= a < st_Q st)%nat ->
      exists x, wall_face S st central QMx FMx c a f u = Ok x /\
        (c = c0 -> a = a0 -> rate x F a0 row = 1 / volume S qn c0 i0 * sumf nf (fun q => if Nat.eqb i0 (fd f q) then contribution F a0 c0 f q else 0)) /\
        (c <> c0 \/ a <> a0 -> rate x F a0 row = 0).
    Proof.
      intros Hc Hf Ef Eu Ha. destruct (wall_loop a c f u Hf Hcs (List.seq 0 nf) (fun _ => (0, 0, 0))) as (arr & E & V & O).
      { apply seq_NoDup. } { intros q Hq. apply in_seq in Hq. lia. } { reflexivity. }
      destruct (Hopp a Ha) as (b' & Eb & Hb). unfold wall_face. rewrite E. cbn [obind]. rewrite Eb. eexists. split; [reflexivity|]. split.
      - intros -> ->. unfold rate. cbn [fst snd]. rewrite apply_row_flat, vector_map, !total_filter, !total_seq, <- sumf_plus.
        rewrite (sumf_ext n _ (fun i => if Nat.eqb i0 i then (let '(m, o, v) := arr i in if has_support_on_face S i f then (m * F a0 (dof_index S c0 i) + o * F b' (dof_index S c0 i) + v) * (1 / volume S qn c0 i) else 0) else 0)).
        2:{ intros i Hi. destruct (arr i) as [[m o] v]. destruct (has_support_on_face S i f); [|destruct (Nat.eqb i0 i); ring].
            unfold apply_row. cbn [fold_right]. rewrite !term_in, vterm_in, !inverse_value by exact Hi.
            replace (Datatypes.S (a0 - 1)) with a0 by lia. replace (Datatypes.S (b' - 1)) with b' by lia. destruct (Nat.eqb i0 i); ring. }
        rewrite sumf_one by exact Hi0. destruct (has_support_on_face S i0 f) eqn:Es.
        + destruct (proj1 (co_support _ _ _ Hco f i0 Hf Hi0) Es) as (q & Hq & Eq).
          rewrite (sumf_ext nf _ (fun q' => if Nat.eqb q q' then contribution F a0 c0 f q' else 0)).
          * rewrite sumf_one by exact Hq. rewrite <- Eq at 1. rewrite V by (apply in_seq; lia). unfold wall_value, contribution. rewrite Ef, Eu.
            unfold opposite. rewrite Eb, Eq. ring.
          * intros q' Hq'. destruct (Nat.eqb_spec i0 (fd f q')) as [E1|E1], (Nat.eqb_spec q q') as [E2|E2]; try reflexivity.
            -- exfalso. apply E2. apply (co_face_inj _ _ _ Hco f); auto. congruence.
            -- exfalso. apply E1. congruence.
        + rewrite sumf_zero; [destruct (arr i0) as [[m o] v]; ring|]. intros q Hq. destruct (Nat.eqb_spec i0 (fd f q)) as [E1|]; [|reflexivity].
          exfalso. assert (T : has_support_on_face S i0 f = true) by (apply (co_support _ _ _ Hco f i0 Hf Hi0); exists q; split; [exact Hq|symmetry; exact E1]). congruence.
      - intros N. unfold rate. cbn [fst snd]. rewrite apply_row_zero.
        + rewrite vector_map, total_zero; [ring|]. intros i Hi. apply filter_In in Hi. destruct Hi as [Hi _]. apply in_seq in Hi. destruct (arr i) as [[m o] v]. apply vterm_out; auto; lia.
        + intros e He. apply in_flat_map in He. destruct He as (i & Hi & He). apply filter_In in Hi. destruct Hi as [Hi _]. apply in_seq in Hi. destruct (arr i) as [[m o] v].
          destruct He as [<-|[<-|[]]]; apply term_out; auto; lia.
    Qed.

    Definition face_part (fs : list nat) : R := total fs (fun f => sumf nf (fun q => if Nat.eqb i0 (fd f q) then contribution F a0 c0 f q else 0)).
    Lemma faces_ok a c : In c cells -> (1 <= a < st_Q st)%nat -> forall fs, (forall f, In f fs -> (f < faces_per_cell S)%nat) ->
      exists x, face_entries S st central velocity QMx FMx c a fs = Ok x /\
        (c = c0 -> a = a0 -> rate x F a0 row = 1 / volume S qn c0 i0 * face_part fs) /\ (c <> c0 \/ a <> a0 -> rate x F a0 row = 0).
    Proof.
      intros Hc Ha. induction fs as [|f r IH]; intros Hf.
      { exists ([], []). split; [reflexivity|]. split; intros; rewrite rate_empty; [unfold face_part; cbn [total]; ring|reflexivity]. }
      destruct IH as (y & Ey & Yi & Yo). { intros g Hg. apply Hf. right. exact Hg. } cbn [face_entries].
      assert (Hf0 := Hf f (or_introl eq_refl)).
      assert (X : exists x, match at_face S c f with
                 | Beyond c' f' => obind (internal_face S st central QMx FMx c a f c' f') (fun x => Ok (x, []))
                 | Outside b => match velocity b with Some u => wall_face S st central QMx FMx c a f u | None => Throw end
                 end = Ok x /\
        (c = c0 -> a = a0 -> rate x F a0 row = 1 / volume S qn c0 i0 * sumf nf (fun q => if Nat.eqb i0 (fd f q) then contribution F a0 c0 f q else 0)) /\
        (c <> c0 \/ a <> a0 -> rate x F a0 row = 0)).
      { destruct (at_face S c f) as [c' f'|b] eqn:E.
        - destruct (gm_conforming _ _ _ _ G c f c' f' Hc Hf0 E) as (_ & Hf' & _). rewrite internal_ok by assumption. cbn [obind]. eexists. split; [reflexivity|]. split.
          + intros -> ->. apply internal_in; assumption.
          + intros N. apply internal_out; auto; lia.
        - destruct (velocity b) as [u|] eqn:Eu; [|elim (Hsup c f b Hc Hf0 E Eu)]. apply (wall_ok a c f b u); assumption. }
      destruct X as (x & Ex & Xi & Xo). rewrite Ex. cbn [obind]. rewrite Ey. cbn [obind]. eexists. split; [reflexivity|]. split.
      - intros E1 E2. rewrite rate_pair, (Xi E1 E2), (Yi E1 E2). unfold face_part. cbn [total]. ring.
      - intros N. rewrite rate_pair, (Xo N), (Yo N). ring.
    Qed.

    Definition node_rate : R := - sumf (sp_dim S) (fun k => st_e st a0 k * slope S qn c0 (fun j => F a0 (dof_index S c0 j)) i0 k)
      + 1 / volume S qn c0 i0 * sumf (faces_per_cell S) (fun f => sumf nf (fun q => if Nat.eqb i0 (fd f q) then contribution F a0 c0 f q else 0)).
    Lemma dirs_ok c : In c cells -> forall dirs, NoDup dirs -> (forall a, In a dirs -> (1 <= a < st_Q st)%nat) ->
      exists x, cell_entries S st central velocity QMx FMx c dirs = Ok x /\
        (c = c0 -> In a0 dirs -> rate x F a0 row = node_rate) /\ (c <> c0 \/ ~ In a0 dirs -> rate x F a0 row = 0).
    Proof.
      intros Hc. induction dirs as [|a r IH]; intros Hn Hd.
      { exists ([], []). split; [reflexivity|]. split; [intros _ []|]. intros _. apply rate_empty. }
      inversion Hn as [|? ? Hx Hr]; subst. destruct IH as (y & Ey & Yi & Yo); [exact Hr|intros b Hb; apply Hd; right; exact Hb|]. cbn [cell_entries].
      assert (Ha := Hd a (or_introl eq_refl)).
      destruct (faces_ok a c Hc Ha (List.seq 0 (faces_per_cell S))) as (x & Ex & Xi & Xo). { intros f Hf. apply in_seq in Hf. lia. }
      rewrite Ex. cbn [obind]. rewrite Ey. cbn [obind]. eexists. split; [reflexivity|].
      assert (P : rate (stiffness_entries S st QMx c a ++ fst x ++ fst y, snd x ++ snd y) F a0 row = rate (stiffness_entries S st QMx c a, []) F a0 row + (rate x F a0 row + rate y F a0 row)).
      { rewrite <- rate_pair. rewrite <- (rate_pair (stiffness_entries S st QMx c a, []) (fst x ++ fst y, snd x ++ snd y)). reflexivity. }
      rewrite P. split.
      - intros -> [->|Hi].
        + rewrite stiffness_in, Xi, Yo by auto. unfold node_rate, face_part. rewrite total_seq. ring.
        + assert (a <> a0) by (intros ->; contradiction). rewrite stiffness_out, Xo, Yi by (auto; lia). ring.
      - intros N. assert (N1 : c <> c0 \/ a <> a0) by (destruct N as [N|N]; [left; exact N|right; intros ->; apply N; left; reflexivity]).
        assert (N2 : c <> c0 \/ ~ In a0 r) by (destruct N as [N|N]; [left; exact N|right; intros X; apply N; right; exact X]).
        rewrite stiffness_out, Xo, Yo by (auto; lia). ring.
    Qed.
    Lemma cells_ok : (a0 < st_Q st)%nat -> forall cs, NoDup cs -> (forall c, In c cs -> In c cells) ->
      exists x, assemble_cells S st central velocity QMx FMx cs = Ok x /\ (In c0 cs -> rate x F a0 row = node_rate) /\ (~ In c0 cs -> rate x F a0 row = 0).
    Proof.
      intros Ha. induction cs as [|c r IH]; intros Hn Hs.
      { exists ([], []). split; [reflexivity|]. split; [intros []|]. intros _. apply rate_empty. }
      inversion Hn as [|? ? Hx Hr]; subst. destruct IH as (y & Ey & Yi & Yo); [exact Hr|intros d Hd; apply Hs; right; exact Hd|]. cbn [assemble_cells].
      destruct (dirs_ok c (Hs c (or_introl eq_refl)) (List.seq 1 (st_Q st - 1))) as (x & Ex & Xi & Xo). { apply seq_NoDup. } { intros a Hi. apply in_seq in Hi. lia. }
      rewrite Ex. cbn [obind]. rewrite Ey. cbn [obind]. eexists. split; [reflexivity|]. rewrite rate_pair. split.
      - intros [->|Hi].
        + rewrite Xi, Yo by (auto; apply in_seq; lia). ring.
        + rewrite Xo, Yi by (auto; left; intros ->; contradiction). ring.
      - intros N. rewrite Xo, Yo; [ring| |]. { intros X. apply N. right. exact X. } left. intros ->. apply N. left. reflexivity.
    Qed.
  End Row.

  Hypothesis Hcs : st_cs2 st <> 0.
  Hypothesis HQ : (1 < st_Q st)%nat.
  Lemma assembled : exists x, (forall s, reassemble S st central velocity cells s = Ok (fst s ++ fst x, snd s ++ snd x)) /\
    forall F c i a, In c cells -> (i < n)%nat -> (1 <= a < st_Q st)%nat -> rate x F a (dof_index S c i) = node_rate F c i a.
  Proof.
    assert (X : exists x, assemble_cells S st central velocity QMx FMx cells = Ok x).
    { assert (D : forall l : list cell, l = [] \/ exists c0, In c0 l) by (intros [|c0 l]; [left; reflexivity|right; exists c0; left; reflexivity]).
      destruct (D cells) as [Ec|(c0 & Hc0)]; [rewrite Ec; eexists; reflexivity|].
      destruct (cells_ok (fun _ _ => 0) c0 0%nat 1%nat) with (cs := cells) as (x & E & _); [exact Hc0|apply (gm_dofs _ _ _ _ G)|lia|exact Hcs|exact HQ|apply (gm_nodup _ _ _ _ G)|auto|].
      exists x. exact E. }
    destruct X as (x & E). exists x. split.
    - intros s. unfold reassemble. rewrite (maps_ok S qn fd Hco). cbn [obind fst snd].
      change (assemble_cells S st central velocity (QM S qn) _ cells) with (assemble_cells S st central velocity QMx FMx cells). rewrite E. reflexivity.
    - intros F c i a Hc Hi [Ha1 Ha2]. destruct (cells_ok F c i a Hc Hi Ha1 Hcs Ha2 cells) as (y & E' & I & _); [apply (gm_nodup _ _ _ _ G)|auto|].
      assert (x = y) by congruence. subst y. apply I. exact Hc.
  Qed.
End Rate.
