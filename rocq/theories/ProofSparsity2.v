(** The sparsity pattern: main theorem and witnesses. *)
From Verif Require Import Prelude ModelStencils ModelSemiLagrangian ModelSEDG SpecSEDG ProofSEDG ProofSEDGMain ProofSEDGStencil ProofSEDGMesh ProofSEDGWitness ModelSparsity SpecSparsity ProofSparsity.
Local Open Scope R_scope.

Lemma opp_moves t scaling a : (1 <= a < st_Q (stencil_of t scaling))%nat -> st_opp (stencil_of t scaling) a <> Some a.
Proof.
  intros [H1 H2]. assert (C : forallb (fun a => match st_opp (stencil_of t scaling) a with Some b => negb (Nat.eqb a b) | None => true end) (List.seq 1 (st_Q (stencil_of t scaling) - 1)) = true) by (destruct t; reflexivity).
  rewrite forallb_forall in C. specialize (C a ltac:(apply in_seq; lia)). intros E. rewrite E, Nat.eqb_refl in C. discriminate.
Qed.

Section Main.
  Context {cell : Type} (S : space cell) (qn : nat -> nat) (fd : nat -> nat -> nat) (t : StencilType) (scaling : R) (central : bool)
          (velocity : nat -> option (point -> point)) (m : mesh cell) (cells : list cell).
  Notation st := (stencil_of t scaling).
  Hypothesis Hco : collocated S qn fd.
  Hypothesis Hb : built_on S m cells.
  Hypothesis Hfe : faces_exist S cells.
  Hypothesis Hk : periodic_keys m.
  Hypothesis Hw : walls_supported S m cells.
  Hypothesis Hid : ids_are_faces S m cells.
  Hypothesis Ho : same_order S cells fd.

  Lemma search_none c f l : (f < faces_per_cell S)%nat -> me_face m c f = AtBoundary f -> (forall e, In e l -> f <> pb_1 (snd e) /\ f <> pb_2 (snd e)) -> search S m c f l = Ok None.
  Proof.
    intros Hf E. induction l as [|e l IH]; intros H; [reflexivity|]. cbn [search]. unfold isFaceInBoundary. destruct (Nat.ltb_spec f (faces_per_cell S)); [|lia]. rewrite E.
    cbn [obind]. destruct (H e (or_introl eq_refl)) as [N1 N2]. apply Nat.eqb_neq in N1, N2. rewrite N1, N2. cbn [orb]. apply IH. intros e' He'. apply H. right. exact He'.
  Qed.
  Lemma search_some c f p l : (f < faces_per_cell S)%nat -> me_face m c f = AtBoundary f -> (forall e, In e l -> f = pb_1 (snd e) \/ f = pb_2 (snd e) -> snd e = p) ->
    (exists e, In e l /\ (f = pb_1 (snd e) \/ f = pb_2 (snd e))) -> search S m c f l = obind (pb_opposite p c) (fun x => Ok (Some x)).
  Proof.
    intros Hf E. induction l as [|e l IH]; intros U (e0 & He0 & M0); [destruct He0|]. cbn [search]. unfold isFaceInBoundary. destruct (Nat.ltb_spec f (faces_per_cell S)); [|lia]. rewrite E.
    cbn [obind]. destruct (Nat.eqb_spec f (pb_1 (snd e))) as [E1|N1]; [cbn [orb]; rewrite (U e (or_introl eq_refl) (or_introl E1)); reflexivity|].
    destruct (Nat.eqb_spec f (pb_2 (snd e))) as [E2|N2]; cbn [orb]; [rewrite (U e (or_introl eq_refl) (or_intror E2)); reflexivity|].
    apply IH; [intros e' He'; apply U; right; exact He'|]. exists e0. split; [|exact M0]. destruct He0 as [<-|He0]; [|exact He0]. exfalso. destruct M0; contradiction.
  Qed.
  Lemma side_found c f : In c cells -> (f < faces_per_cell S)%nat ->
    pattern_side S m c f = Ok (match at_face S c f with Beyond c' f' => Some (c', f') | Outside _ => None end).
  Proof.
    intros Hc Hf. assert (B := Hb c f Hc Hf). unfold assembled_side in B. unfold pattern_side. destruct (me_face m c f) as [c' f'|id] eqn:E.
    - injection B as <-. reflexivity.
    - assert (id = f) by (apply (Hid c f id Hc Hf E)). subst id. destruct Hk as [K1 K2]. destruct (find_periodic m f) as [p|] eqn:F.
      + rewrite (search_some c f p).
        * destruct (pb_opposite p c) as [[c' f']| |]; try discriminate. cbn [obind fst snd] in *. injection B as <-. reflexivity.
        * exact Hf.
        * exact E.
        * intros [k p'] He [M|M]; cbn [snd] in *; destruct (K1 k p' He) as [F1 F2]; [rewrite <- M in F1|rewrite <- M in F2]; congruence.
        * destruct (K2 f p F) as [M|M]; unfold find_periodic in F; destruct (List.find _ (me_periodic m)) as [e|] eqn:Fe; try discriminate; apply find_some in Fe;
            injection F as F; exists e; rewrite F; split; [apply Fe|left; exact M|apply Fe|right; exact M].
      + rewrite search_none; [| exact Hf | exact E |].
        * injection B as <-. reflexivity.
        * intros [k p'] He. cbn [snd]. destruct (K1 k p' He) as [F1 F2]. split; intros M; [rewrite <- M in F1|rewrite <- M in F2]; congruence.
  Qed.
  Lemma face_pattern_ok c f : In c cells -> (f < faces_per_cell S)%nat -> exists l, face_pattern S m c f = Ok l /\
    forall c' f' q, at_face S c f = Beyond c' f' -> (q < n_face_points S)%nat -> In (dof_index S c (fd f q), dof_index S c' (fd f' q)) l.
  Proof.
    intros Hc Hf. assert (E := side_found c f Hc Hf). destruct (at_face S c f) as [c' f'|b] eqn:A.
    - assert (Hf' := Hfe c f c' f' Hc Hf A). destruct (pairs_ok S qn fd Hco c f c' f' m Hf Hf' E) as (l & El & I).
      + intros q q' Hq Hq'. apply (Ho c f c' f' q q' Hc Hf A Hq Hq').
      + exists l. split; [exact El|]. intros c2 f2 q A2 Hq. injection A2 as <- <-. apply I. exact Hq.
    - exists []. unfold face_pattern. rewrite E. cbn [obind]. split; [reflexivity|]. intros c' f' q A'. discriminate.
  Qed.
  Lemma sparser_ok : exists l, sparser_pattern S m cells = Ok l /\
    (forall c i j, In c cells -> (i < dofs_per_cell S)%nat -> (j < dofs_per_cell S)%nat -> In (dof_index S c i, dof_index S c j) l) /\
    (forall c f c' f' q, In c cells -> (f < faces_per_cell S)%nat -> at_face S c f = Beyond c' f' -> (q < n_face_points S)%nat -> In (dof_index S c (fd f q), dof_index S c' (fd f' q)) l).
  Proof.
    assert (C : forall c, In c cells -> exists l, cell_pattern S m c = Ok l /\
      (forall i j, (i < dofs_per_cell S)%nat -> (j < dofs_per_cell S)%nat -> In (dof_index S c i, dof_index S c j) l) /\
      (forall f c' f' q, (f < faces_per_cell S)%nat -> at_face S c f = Beyond c' f' -> (q < n_face_points S)%nat -> In (dof_index S c (fd f q), dof_index S c' (fd f' q)) l)).
    { intros c Hc. unfold cell_pattern. destruct (collect_total (face_pattern S m c) (List.seq 0 (faces_per_cell S))) as (l & El).
      - intros f Hf. apply in_seq in Hf. destruct (face_pattern_ok c f Hc ltac:(lia)) as (l & El & _). exists l. exact El.
      - rewrite El. cbn [obind]. eexists. split; [reflexivity|]. split.
        + intros i j Hi Hj. apply in_or_app. left. apply in_prod; apply in_map; apply in_seq; lia.
        + intros f c' f' q Hf A Hq. apply in_or_app. right. apply (proj2 (collect_in _ _ _ El _)). destruct (face_pattern_ok c f Hc Hf) as (l' & El' & I).
          exists f, l'. split; [apply in_seq; lia|]. split; [exact El'|]. apply I; assumption. }
    destruct (collect_total (cell_pattern S m) cells) as (l & El); [intros c Hc; destruct (C c Hc) as (l & El & _); exists l; exact El|].
    exists l. split; [exact El|]. split.
    - intros c i j Hc Hi Hj. apply (proj2 (collect_in _ _ _ El _)). destruct (C c Hc) as (l' & El' & I & _). exists c, l'. auto.
    - intros c f c' f' q Hc Hf A Hq. apply (proj2 (collect_in _ _ _ El _)). destruct (C c Hc) as (l' & El' & _ & I). exists c, l'. split; [exact Hc|]. split; [exact El'|]. apply (I f c' f' q); assumption.
  Qed.
  Lemma wall_ok : exists l, wall_pattern S m cells = Ok l /\ forall c f b i, In c cells -> (f < faces_per_cell S)%nat -> at_face S c f = Outside b ->
    (i < dofs_per_cell S)%nat -> has_support_on_face S i f = true -> In (dof_index S c i, dof_index S c i) l.
  Proof.
    destruct Hw as [W1 W2]. destruct (collect_total (fun w : nat * bool => if snd w then Ok (couple_wall S m (fst w) cells) else Throw) (me_walls m)) as (l & El).
    - intros w Hw0. rewrite (W1 w Hw0). eexists; reflexivity.
    - exists l. split; [exact El|]. intros c f b i Hc Hf A Hi Hs. apply (proj2 (collect_in _ _ _ El _)). exists (b, true), (couple_wall S m b cells).
      split; [apply (W2 c f b Hc Hf A)|]. split; [reflexivity|]. unfold couple_wall. apply in_flat_map. exists c. split; [exact Hc|]. apply in_flat_map. exists f. split; [apply in_seq; lia|].
      assert (B := Hb c f Hc Hf). rewrite A in B. unfold assembled_side in B. destruct (me_face m c f) as [c' f'|id]; [discriminate|].
      destruct (find_periodic m id) as [p|]; [destruct (pb_opposite p c) as [x| |]; discriminate|]. injection B as ->. rewrite Nat.eqb_refl.
      apply in_map_iff. exists i. split; [reflexivity|]. apply filter_In. split; [apply in_seq; lia|exact Hs].
  Qed.

  Lemma first_opposite : exists o, st_opp st 1 = Some o /\ (2 <= o < st_Q st - 1)%nat.
  Proof. destruct t; eexists; (split; [reflexivity|]); (split; [apply Nat.leb_le; reflexivity|apply Nat.ltb_lt; reflexivity]). Qed.

  Theorem pattern_holds s : reassemble S st central velocity cells empty_system = Ok s ->
    exists pattern, update_pattern S m st cells = Ok pattern /\ has_place pattern (fst s).
  Proof.
    intros E. destruct sparser_ok as (diag & Ed & Dc & Df). destruct wall_ok as (wall & Ew & Dw). destruct first_opposite as (o & Eo & Bo).
    unfold update_pattern. rewrite Ed, Ew. cbn [obind]. rewrite Eo. destruct (Nat.leb_spec o (st_Q st - 1)) as [L1|]; [|lia]. destruct (Nat.eqb_spec o 1) as [|L2]; [lia|]. destruct (Nat.ltb_spec o (st_Q st - 1)) as [L3|]; [|lia].
    eexists. split; [reflexivity|]. cbv beta.
    assert (Di : forall I, (if (Nat.eqb I 0 && Nat.eqb I 0)%bool then diag else if (Nat.eqb I 0 && Nat.eqb I o)%bool then [] else if (Nat.eqb I 0 && Nat.eqb (I + 1) o)%bool then wall else if Nat.eqb I I then diag
      else match st_opp st (I + 1) with Some b => if Nat.eqb (I + 1) b then wall else [] | None => [] end) = diag).
    { intros I. destruct (Nat.eqb_spec I 0); cbn [andb]; [reflexivity|]. rewrite Nat.eqb_refl. reflexivity. }
    intros I J i j v H. apply (reassemble_in S st central velocity qn fd Hco cells s E) in H. destruct H as (c & a & Hc & Ha & H). apply in_seq in Ha. destruct H as [H|(f & r & Hf & Er & H)].
    - unfold stiffness_entries in H. apply in_flat_map in H. destruct H as (x & Hx & H). apply in_map_iff in H. destruct H as (y & Ey & Hy). apply in_seq in Hx, Hy.
      injection Ey as <- <- <- <- _. rewrite Di. apply Dc; [exact Hc|lia|lia].
    - apply in_seq in Hf. assert (Hf2 : (f < faces_per_cell S)%nat) by lia. unfold face_result in Er. destruct (at_face S c f) as [c' f'|b] eqn:A.
      + assert (Hf' := Hfe c f c' f' Hc Hf2 A). destruct (internal_face S st central (QM S qn) (FM S fd) c a f c' f') as [x| |] eqn:Ex; try discriminate. cbn [obind] in Er. injection Er as <-. cbn [fst] in H.
        apply (internal_in S st central qn fd Hco c a f c' f' x Hf2 Hf' Ex) in H. destruct H as (q & Hq & H). cbv zeta in H.
        assert (Hd : (fd f q < dofs_per_cell S)%nat) by (apply (co_face _ _ _ Hco); assumption).
        assert (X : (I, J) = ((a - 1)%nat, (a - 1)%nat) /\ (i = dof_index S c (fd f q) /\ (j = dof_index S c (fd f q) \/ j = dof_index S c' (fd f' q)))).
        { destruct central; [|destruct (Rlt_dec (exn S st c a f q) 0)]; destruct H as [H|[H|[]]]; injection H; intros; subst; split; try reflexivity; split; try reflexivity; auto. }
        destruct X as [XI (-> & XJ)]. injection XI as -> ->. rewrite Di. destruct XJ as [->| ->]; [apply Dc; assumption|apply (Df c f c' f' q); assumption].
      + destruct (velocity b) as [u|]; [|discriminate]. unfold wall_face in Er. destruct (wall_arrays _ _ _ _ _ _ _ _ _ _) as [arrays| |]; try discriminate. cbn [obind] in Er.
        destruct (moving_opposites t scaling a ltac:(lia)) as (b' & Eb & Hb' & Eb' & _). rewrite Eb in Er. injection Er as <-. cbn [fst] in H. apply in_flat_map in H. destruct H as (x & Hx & H).
        apply filter_In in Hx. destruct Hx as [Hx Hs]. apply in_seq in Hx. destruct (arrays x) as [[v1 v2] v3].
        destruct H as [H|[H|[]]]; injection H; intros; subst I J i j.
        * rewrite Di. apply Dc; [exact Hc|lia|lia].
        * assert (W : In (dof_index S c x, dof_index S c x) wall) by (apply (Dw c f b x); try assumption; lia).
          assert (Nab : a <> b'). { intros <-. assert (X := opp_moves t scaling a ltac:(lia)). congruence. }
          replace (b' - 1 + 1)%nat with b' by lia. rewrite Eb'. replace (a - 1 + 1)%nat with a by lia. rewrite Nat.eqb_refl.
          destruct (Nat.eqb_spec (a - 1) 0) as [Z|Z]; cbn [andb].
          -- assert (a = 1)%nat by lia. subst a. assert (o = b') by congruence. subst o. destruct (Nat.eqb_spec (b' - 1) 0); [lia|]. destruct (Nat.eqb_spec (b' - 1) b'); [lia|].
             rewrite Nat.eqb_refl. exact W.
          -- destruct (Nat.eqb_spec (a - 1) (b' - 1)); [lia|]. exact W.
  Qed.
End Main.
