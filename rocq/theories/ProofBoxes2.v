(** Gauss-Lobatto elements on boxes: collocation, integration by parts, exact derivatives. *)
From Verif Require Import Prelude BigSum ModelStencils ModelSemiLagrangian ModelSEDG SpecSEDG ModelElements SpecElements ModelBoxes SpecBoxes ProofSemiLagrangian ProofElements ProofBoxes.
Local Open Scope R_scope.

Section Boxes.
  Context {cell : Type} (n D : nat) (x w : nat -> R) (size : cell -> nat -> R).
  Variables (points : cell -> nat -> nat -> point) (dofs : cell -> nat -> nat) (behind : cell -> nat -> side cell) (cells : list cell).
  Hypotheses (HD : (D = 2 \/ D = 3)%nat) (HL : gauss_lobatto n x w) (HM : box_mesh n D size dofs behind cells).
  Let B := box_space x w n D size points dofs behind.
  Let m := S n.
  Let fd (f q : nat) : nat := ins m D (f / 2) (if Nat.even f then 0 else n) q.
  Let el := tensor_element x n D.
  Let Hm : (0 < m)%nat. Proof. unfold m. lia. Qed.
  Let Hx := gl_distinct n x w HL.

  Lemma face_dir f : (f < 2 * D)%nat -> (f / 2 < D)%nat.
  Proof. intros H. apply Nat.div_lt_upper_bound; lia. Qed.
  Lemma face_end f : ((if Nat.even f then 0 else n) < m)%nat.
  Proof. unfold m. destruct (Nat.even f); lia. Qed.
  Lemma face_node f q e : (f < 2 * D)%nat -> (e < D)%nat -> face_unit x n D f q e = el_node el (fd f q) e.
  Proof.
    intros Hf He. unfold el, fd. cbn [tensor_element el_node]. change (S n) with m. rewrite (digit_ins m D (f / 2) Hm) by (try apply face_end; exact He).
    unfold face_unit. destruct (Nat.eqb e (f / 2)); [|reflexivity]. destruct (Nat.even f); symmetry; [apply (gl_first n x w HL)|apply (gl_last n x w HL)].
  Qed.
  Lemma box_collocated : collocated B (fun i => i) fd.
  Proof.
    constructor; unfold B; cbn [box_space dofs_per_cell n_quadrature_points n_face_points faces_per_cell shape_value face_shape_value has_support_on_face sp_dim].
    - intros i Hi. exact Hi.
    - intros i q Hi Hq. rewrite (tensor_delta x n D Hx i q _ Hi Hq) by reflexivity. unfold delta. rewrite (Nat.eqb_sym q i). reflexivity.
    - intros f q Hf _. apply (ins_lt m D (f / 2) Hm). apply face_end.
    - intros f q q' Hf Hq Hq' E. exact (proj2 (ins_inj m D (f / 2) Hm HD (face_dir f Hf) _ _ q q' (face_end f) (face_end f) Hq Hq' E)).
    - intros f i q Hf Hi Hq. rewrite (tensor_delta x n D Hx i (fd f q)); [reflexivity|exact Hi|apply (ins_lt m D (f / 2) Hm); apply face_end|].
      intros d Hd. apply face_node; assumption.
    - intros f i Hf Hi. rewrite Nat.eqb_eq. change (S n) with m. split.
      + intros E. destruct (on_line m D (f / 2) Hm HD (face_dir f Hf) i Hi) as (s & q & Hs & Hq & Ei & Es). exists q. split; [exact Hq|].
        unfold fd. rewrite <- E, <- Es. symmetry. exact Ei.
      + intros (q & Hq & <-). unfold fd. rewrite (digit_ins m D (f / 2) Hm) by (try apply face_end; apply face_dir; exact Hf). rewrite Nat.eqb_refl. reflexivity.
  Qed.

  (** On a line in direction [k]. *)
  Section Direction.
    Variable k : nat.
    Hypothesis Hk : (k < D)%nat.
    Let at_ (s q : nat) : nat := ins m D k s q.
    Lemma grad_line r s q q' : (r < m)%nat -> (s < m)%nat -> (q < m ^ (D - 1))%nat -> (q' < m ^ (D - 1))%nat ->
      el_grad x n D (at_ r q') (el_node el (at_ s q)) k = dlagrange x n r (x s) * delta q q'.
    Proof.
      intros Hr Hs Hq Hq'. unfold el_grad, el. cbn [tensor_element el_node]. change (S n) with m.
      rewrite (prodf_ext D _ (fun d => if Nat.eqb d k then dlagrange x n r (x s) else lagrange x n (digit m (slot D k d) q') (x (digit m (slot D k d) q)))).
      - rewrite (prod_ins m D k Hm Hk). f_equal. unfold delta. destruct (Nat.eqb_spec q q') as [<-|N].
        + apply prodf_one. intros e He. destruct (Nat.eqb e k); [reflexivity|]. assert (A := digit_lt m (slot D k e) q Hm). unfold m in *. rewrite (lagrange_delta x n Hx) by lia.
          unfold delta. rewrite Nat.eqb_refl. reflexivity.
        + destruct (digits_differ m (D - 1) q q' Hm Hq Hq' N) as (t & Ht & Nt). destruct (unslot_facts D k t HD Hk Ht) as (L & Ne & S).
          apply (prodf_zero D _ (unslot D k t) L). destruct (Nat.eqb_spec (unslot D k t) k); [congruence|]. rewrite S.
          assert (A := digit_lt m t q Hm). assert (A' := digit_lt m t q' Hm). unfold m in *. rewrite (lagrange_delta x n Hx) by lia. unfold delta.
          destruct (Nat.eqb_spec (digit (Datatypes.S n) t q') (digit (Datatypes.S n) t q)); [congruence|reflexivity].
      - intros d Hd. unfold at_. rewrite !(digit_ins m D k Hm) by assumption. destruct (Nat.eqb d k); reflexivity.
    Qed.
    Lemma slope_line c v s q : (s < m)%nat -> (q < m ^ (D - 1))%nat ->
      slope B (fun i => i) c v (at_ s q) k = sumf m (fun r => v (at_ r q) * dlagrange x n r (x s)) / size c k.
    Proof.
      intros Hs Hq. unfold slope, B. cbn [box_space dofs_per_cell shape_grad]. change (S n) with m. rewrite (line_sum m D k Hm HD Hk).
      rewrite (sumf_ext _ _ (fun q' => delta q q' * (sumf m (fun r => v (at_ r q') * dlagrange x n r (x s)) / size c k))).
      - apply (sumf_delta _ q (fun q' => sumf m (fun r => v (at_ r q') * dlagrange x n r (x s)) / size c k)). exact Hq.
      - intros q' Hq'. unfold Rdiv. rewrite <- sumf_scal_r, <- sumf_scal. apply sumf_ext. intros r Hr. fold (at_ r q'). fold el. rewrite grad_line by assumption. ring.
    Qed.
    Definition cross (c : cell) (q : nat) : R := prodf D (fun d => if Nat.eqb d k then 1 else w (digit m (slot D k d) q) * size c d).
    Lemma volume_line c s q : (s < m)%nat -> volume B (fun i => i) c (at_ s q) = w s * size c k * cross c q.
    Proof.
      intros Hs. unfold volume, B. cbn [box_space JxW]. change (S n) with m.
      rewrite (prodf_ext D _ (fun d => if Nat.eqb d k then w s * size c k else w (digit m (slot D k d) q) * size c d)).
      - apply (prod_ins m D k Hm Hk).
      - intros d Hd. unfold at_. rewrite (digit_ins m D k Hm) by assumption. destruct (Nat.eqb_spec d k) as [->|_]; reflexivity.
    Qed.
    Lemma parts_lines c u v : size c k <> 0 ->
      sumf (m ^ D)%nat (fun i => volume B (fun i => i) c i * (u i * slope B (fun i => i) c v i k + slope B (fun i => i) c u i k * v i))
      = sumf (m ^ (D - 1))%nat (fun q => cross c q * (u (at_ n q) * v (at_ n q) - u (at_ 0 q) * v (at_ 0 q))).
    Proof.
      intros Hh. rewrite (line_sum m D k Hm HD Hk). apply sumf_ext. intros q Hq.
      rewrite <- (line_parts n x w HL (fun s => u (at_ s q)) (fun s => v (at_ s q))). rewrite <- sumf_scal. unfold m at 1. apply sumf_ext. intros s Hs.
      fold (at_ s q). rewrite volume_line, !slope_line by assumption. unfold m. field. exact Hh.
    Qed.
  End Direction.

  Lemma cross_face c f q : face_JxW B c f q = cross (f / 2) c q.
  Proof. reflexivity. Qed.
  Lemma box_parts c : In c cells -> by_parts B (fun i => i) fd c.
  Proof.
    intros Hc k u v Hk. assert (Hk' : (k < D)%nat) by exact Hk. assert (Hs : size c k <> 0) by (assert (A := bm_size _ _ _ _ _ _ HM c k Hc Hk'); lra).
    transitivity (sumf (m ^ (D - 1))%nat (fun q => cross k c q * (u (ins m D k n q) * v (ins m D k n q) - u (ins m D k 0 q) * v (ins m D k 0 q)))).
    { exact (parts_lines k Hk' c u v Hs). }
    rewrite (sumf_ext (m ^ (D - 1)) _ (fun q => - 1 * (cross k c q * (u (ins m D k 0 q) * v (ins m D k 0 q))) + cross k c q * (u (ins m D k n q) * v (ins m D k n q)))) by (intros; ring).
    rewrite sumf_plus.
    assert (Face : forall f, sumf (n_face_points B) (fun q => face_JxW B c f q * face_normal B c f q k * (u (fd f q) * v (fd f q))) =
      if Nat.eqb k (f / 2) then (if Nat.even f then sumf (m ^ (D - 1))%nat (fun q => - 1 * (cross k c q * (u (ins m D k 0 q) * v (ins m D k 0 q))))
        else sumf (m ^ (D - 1))%nat (fun q => cross k c q * (u (ins m D k n q) * v (ins m D k n q)))) else 0).
    { intros f. rewrite (sumf_ext (n_face_points B) _ (fun q => cross (f / 2) c q * (if Nat.eqb k (f / 2) then (if Nat.even f then - 1 else 1) else 0) * (u (fd f q) * v (fd f q)))) by reflexivity.
      unfold fd. change (n_face_points B) with (m ^ (D - 1))%nat.
      destruct (Nat.eqb_spec k (f / 2)) as [<-|_]; [|apply sumf_zero; intros; ring]. destruct (Nat.even f); apply sumf_ext; intros; ring. }
    rewrite (sumf_ext (faces_per_cell B) _ _ (fun f _ => Face f)). change (faces_per_cell B) with (2 * D)%nat.
    set (L := sumf (m ^ (D - 1))%nat (fun q => - 1 * (cross k c q * (u (ins m D k 0 q) * v (ins m D k 0 q))))).
    set (T := sumf (m ^ (D - 1))%nat (fun q => cross k c q * (u (ins m D k n q) * v (ins m D k n q)))).
    clear - HD Hk'. destruct HD as [->| ->].
    - destruct k as [|[|k]]; [| |lia]; cbn; ring.
    - destruct k as [|[|[|k]]]; [| | |lia]; cbn; ring.
  Qed.
  Lemma box_flat c : flat_constants B (fun i => i) c.
  Proof.
    intros i k Hi Hk. destruct (on_line m D k Hm HD Hk i Hi) as (s & q & Hs & Hq & -> & _). rewrite slope_line by assumption.
    rewrite (sumf_ext m _ (fun r => dlagrange x n r (x s))) by (intros; ring). unfold m. rewrite (line_flat n x w HL). unfold Rdiv. ring.
  Qed.
  Theorem boxes_good : good_mesh B (fun i => i) fd cells.
  Proof.
    constructor.
    - exact HD.
    - unfold B. cbn [box_space dofs_per_cell]. apply pow_pos_nat. lia.
    - exact box_collocated.
    - exact (bm_nodup _ _ _ _ _ _ HM).
    - intros c c' i j Hc Hc' Hi Hj E. exact (bm_own _ _ _ _ _ _ HM c c' i j Hc Hc' Hi Hj E).
    - intros c f c' f' Hc Hf E. destruct (bm_faces _ _ _ _ _ _ HM c f c' f' Hc Hf E) as (Hc' & E' & Ef & Ee & Es). split; [exact Hc'|]. split.
      + assert (A := face_dir f Hf). rewrite <- Ef in A. change (f' < 2 * D)%nat. assert (X := Nat.div_mod f' 2 ltac:(lia)). assert (Y := Nat.mod_upper_bound f' 2 ltac:(lia)). lia.
      + split; [exact E'|]. intros q Hq. unfold B. cbn [box_space face_JxW face_normal sp_dim]. rewrite Ef, Ee. split.
        * apply prodf_ext. intros d Hd. destruct (Nat.eqb_spec d (f / 2)); [reflexivity|]. rewrite Es by assumption. reflexivity.
        * intros k Hk. destruct (Nat.eqb k (f / 2)); [|ring]. destruct (Nat.even f); cbn [negb]; ring.
    - intros c q Hc Hq. unfold B. cbn [box_space JxW]. clear Hq.
      assert (P : forall N, (N <= D)%nat -> 0 < prodf N (fun d => w (digit m d q) * size c d)).
      { induction N as [|N IH]; intros HN; cbn [prodf]; [lra|]. apply Rmult_lt_0_compat; [apply IH; lia|].
        apply Rmult_lt_0_compat; [apply (gl_weights n x w HL); assert (A := digit_lt m N q Hm); unfold m in *; lia|apply (bm_size _ _ _ _ _ _ HM); [exact Hc|lia]]. }
      apply (P D). lia.
    - exact box_parts.
    - intros c _. apply box_flat.
  Qed.

  (** Exact derivatives of polynomials: [F] as a function of the reference coordinates. *)
  Lemma polynomial_line F u k : polynomial n D F -> (k < D)%nat -> deg n (fun t => F (fun d => if Nat.eqb d k then t else u d)).
  Proof.
    intros (K & c & al & Hal & E) Hk. apply deg_ext with (f := fun t => sumf K (fun j => c j * prodf D (fun d => (if Nat.eqb d k then t else u d) ^ al j d))).
    - apply (deg_sum n K (fun j t => c j * prodf D (fun d => (if Nat.eqb d k then t else u d) ^ al j d))). intros j Hj. apply deg_scal.
      apply deg_ext with (f := fun t => prodf D (fun d => if Nat.eqb d k then 1 else u d ^ al j d) * t ^ al j k).
      + apply deg_scal. apply deg_pow. apply Hal; assumption.
      + intros t. rewrite (prodf_ext D _ (fun d => if Nat.eqb d k then t ^ al j k else u d ^ al j d)).
        * rewrite (prod_ins m D k Hm Hk). ring.
        * intros d _. destruct (Nat.eqb_spec d k) as [->|_]; reflexivity.
    - intros t. apply E.
  Qed.
  Lemma polynomial_ext F u v : polynomial n D F -> (forall d, (d < D)%nat -> u d = v d) -> F u = F v.
  Proof.
    intros (K & c & al & _ & E) H. rewrite !E. apply sumf_ext. intros j _. f_equal. apply prodf_ext. intros d Hd. rewrite H by exact Hd. reflexivity.
  Qed.
  Theorem slope_exact c F i k : In c cells -> polynomial n D F -> (i < S n ^ D)%nat -> (k < D)%nat ->
    derivable_pt_lim (fun t => F (fun d => if Nat.eqb d k then t else el_node el i d)) (el_node el i k)
      (size c k * slope B (fun i => i) c (fun j => F (el_node el j)) i k).
  Proof.
    intros Hc HF Hi Hk. destruct (on_line m D k Hm HD Hk i Hi) as (s & q & Hs & Hq & -> & _). rewrite slope_line by assumption.
    assert (Hz : size c k <> 0) by (assert (A := bm_size _ _ _ _ _ _ HM c k Hc Hk); lra).
    set (f := fun t => F (fun d => if Nat.eqb d k then t else el_node el (ins m D k s q) d)).
    assert (X := line_interpolant n x w HL f (el_node el (ins m D k s q) k) (polynomial_line F _ k HF Hk)).
    replace (size c k * (sumf m (fun r => F (el_node el (ins m D k r q)) * dlagrange x n r (x s)) / size c k)) with
      (sumf (S n) (fun r => f (x r) * dlagrange x n r (el_node el (ins m D k s q) k))); [exact X|].
    transitivity (sumf m (fun r => F (el_node el (ins m D k r q)) * dlagrange x n r (x s))); [|field; exact Hz]. apply sumf_ext. intros r Hr.
    assert (Es : el_node el (ins m D k s q) k = x s).
    { unfold el. cbn [tensor_element el_node]. change (S n) with m. rewrite (digit_ins m D k Hm) by assumption. rewrite Nat.eqb_refl. reflexivity. }
    rewrite Es. f_equal. unfold f. apply (polynomial_ext F _ _ HF). intros d Hd. unfold el. cbn [tensor_element el_node]. change (S n) with m.
    rewrite !(digit_ins m D k Hm) by assumption. destruct (Nat.eqb d k); reflexivity.
  Qed.
End Boxes.
