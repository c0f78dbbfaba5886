(** Spectral filter: theorems on the mesh, damping, witnesses. *)
From Verif Require Import Prelude BigSum ModelFilter SpecFilter ProofFilter.
From Coq Require Import Classical_Prop FunctionalExtensionality.
Local Open Scope R_scope.

Section Mesh.
  Variables (leg : nat -> R -> R) (shape : nat -> point -> R) (q : quadrature) (inv : nat -> matrix -> matrix) (dim p : nat).
  Variables (alpha s : R) (Nc : nat) (by_sum : bool).
  Let n := Nat.pow (p + 1) dim.
  Let cf := exp_cell leg shape (qn q) (qpoint q) (qweight q) inv alpha s Nc by_sum dim p.

  Lemma cf_ext f g : (forall k, (k < n)%nat -> f k = g k) -> forall i, cf f i = cf g i.
  Proof. intros H i. unfold cf. rewrite !exp_core. apply core_ext. exact H. Qed.

  Hypothesis Hdim : dim123 dim.
  Hypothesis Hinv : inverts inv.
  Hypothesis Hres : resolved dim p q leg shape.
  Variables (cells : list (list nat)) (x : nat -> R) (c : list nat).
  Hypothesis Hnd : NoDup (concat cells).
  Hypothesis Hin : In c cells.
  Hypothesis Hlen : length c = n.

  Lemma mesh_modes g : coefficients n q shape (basis leg dim p) (fun k => x (nth k c 0%nat)) g ->
    coefficients n q shape (basis leg dim p) (fun k => applyFilter cf cells x (nth k c 0%nat))
      (fun i => damping alpha s Nc (highest by_sum dim p) (code_degree by_sum dim p i) * g i).
  Proof.
    intros H.
    apply (core_coefficients leg shape q inv dim p Hdim Hinv Hres
             (fun i => damping alpha s Nc (highest by_sum dim p) (code_degree by_sum dim p i))) in H.
    revert H. apply (coefficients_ext leg shape q inv dim p Hdim Hinv Hres); [|reflexivity].
    intros k Hk. rewrite (apply_cell cf n cells x c cf_ext Hnd Hin Hlen k Hk). unfold cf. rewrite exp_core. reflexivity.
  Qed.

  Lemma expansion_ext phi f g y : (forall k, (k < n)%nat -> f k = g k) -> expansion n phi f y = expansion n phi g y.
  Proof. intros H. apply sumf_ext. intros k Hk. rewrite H by assumption. reflexivity. Qed.

  Lemma degree_0 : code_degree by_sum dim p 0 = 0%nat.
  Proof.
    destruct Hdim as [->|[->| ->]]; [rewrite code_degree_12 by tauto; rewrite degrees_1
      |rewrite code_degree_12 by tauto; rewrite degrees_2|rewrite code_degree_3; rewrite degrees_3];
      repeat rewrite ?Nat.div_0_l, ?Nat.mod_0_l by lia; destruct by_sum; reflexivity.
  Qed.

  Lemma mesh_mean : mean_mode dim p q leg -> (1 <= Nc)%nat ->
    integral q (expansion n shape (fun k => applyFilter cf cells x (nth k c 0%nat)))
    = integral q (expansion n shape (fun k => x (nth k c 0%nat))).
  Proof.
    intros M HN. change n with (modes dim p).
    rewrite <- (core_mean leg shape q inv dim p Hdim Hinv Hres
                  (fun i => damping alpha s Nc (highest by_sum dim p) (code_degree by_sum dim p i)) (fun k => x (nth k c 0%nat)) M).
    - apply sumf_ext. intros a _. f_equal. apply expansion_ext. intros k Hk.
      rewrite (apply_cell cf n cells x c cf_ext Hnd Hin Hlen k Hk). unfold cf. rewrite exp_core. reflexivity.
    - rewrite degree_0. unfold damping. destruct (Nat.ltb_spec 0 Nc); [reflexivity|lia].
  Qed.
End Mesh.

(** ** Damping *)
Lemma Rpower_mono_base a b s : 0 < a <= b -> 0 <= s -> Rpower a s <= Rpower b s.
Proof. intros H Hs. apply Rle_Rpower_l; lra. Qed.

Lemma ratio_pos d D Nc : (Nc <= d <= D)%nat -> 0 < (INR d + 1 - INR Nc) / (INR D + 1 - INR Nc).
Proof.
  intros [H1 H2]. apply le_INR in H1. apply le_INR in H2. apply Rdiv_lt_0_compat; lra.
Qed.

Lemma exp_mono a b : a <= b -> exp a <= exp b.
Proof. intros [H| ->]; [left; apply exp_increasing; assumption|lra]. Qed.

Lemma damping_range alpha s Nc D d : 0 <= alpha -> 0 < damping alpha s Nc D d <= 1.
Proof.
  intros Ha. unfold damping. destruct (Nat.ltb d Nc); [lra|]. split; [apply exp_pos|].
  apply Rle_trans with (exp 0); [|rewrite exp_0; lra]. apply exp_mono.
  assert (P : 0 <= alpha * Rpower ((INR d + 1 - INR Nc) / (INR D + 1 - INR Nc)) s)
    by (apply Rmult_le_pos; [assumption|left; apply exp_pos]). lra.
Qed.

Lemma damping_mono alpha s Nc D d d' : 0 <= alpha -> 0 <= s -> (d <= d' <= D)%nat ->
  damping alpha s Nc D d' <= damping alpha s Nc D d.
Proof.
  intros Ha Hs [H1 H2]. destruct (Nat.ltb_spec d Nc) as [L|L].
  - unfold damping at 2. rewrite (proj2 (Nat.ltb_lt d Nc) L). apply damping_range. assumption.
  - unfold damping. rewrite (proj2 (Nat.ltb_ge d Nc)), (proj2 (Nat.ltb_ge d' Nc)) by lia. apply exp_mono.
    assert (P := ratio_pos d D Nc ltac:(lia)).
    assert (Q : (INR d + 1 - INR Nc) / (INR D + 1 - INR Nc) <= (INR d' + 1 - INR Nc) / (INR D + 1 - INR Nc)).
    { apply le_INR in H1. apply le_INR in H2. apply le_INR in L. apply Rmult_le_compat_r; [|lra].
      left. apply Rinv_0_lt_compat. lra. }
    assert (M := Rpower_mono_base _ _ s (conj P Q) Hs).
    apply (Rmult_le_compat_l alpha) in M; lra.
Qed.

Lemma damping_last alpha s Nc D : (Nc <= D)%nat -> damping alpha s Nc D D = exp (- alpha).
Proof.
  intros H. unfold damping. rewrite (proj2 (Nat.ltb_ge D Nc) H).
  assert (H' := le_INR _ _ H). replace ((INR D + 1 - INR Nc) / (INR D + 1 - INR Nc)) with 1 by (field; lra).
  unfold Rpower. rewrite ln_1, Rmult_0_r, exp_0. f_equal. ring.
Qed.

Lemma damping_below alpha s Nc D d : (d < Nc)%nat -> damping alpha s Nc D d = 1.
Proof. intros H. unfold damping. rewrite (proj2 (Nat.ltb_lt d Nc) H). reflexivity. Qed.

Lemma damping_strict alpha s Nc D d : 0 < alpha -> (Nc <= d)%nat -> damping alpha s Nc D d < 1.
Proof.
  intros Ha H. unfold damping. rewrite (proj2 (Nat.ltb_ge d Nc) H). apply Rlt_le_trans with (exp 0); [|rewrite exp_0; lra]. apply exp_increasing.
  assert (P : 0 < alpha * Rpower ((INR d + 1 - INR Nc) / (INR D + 1 - INR Nc)) s)
    by (apply Rmult_lt_0_compat; [assumption|apply exp_pos]). lra.
Qed.

(** ** The new filter *)
Definition new_counted (dim p i : nat) : nat :=
  match dim with 3%nat => new_degree 3 p i | _ => total_degree (degrees_of dim p i) end.

Lemma new_degree_12 dim p i : dim = 1%nat \/ dim = 2%nat -> new_degree dim p i = total_degree (degrees_of dim p i).
Proof. intros [->| ->]; [rewrite degrees_1|rewrite degrees_2]; unfold total_degree; cbn [new_degree fold_right]; lia. Qed.

Lemma new_sigma_some alpha s dim p i : dim123 dim -> (1 <= p)%nat -> 0 < s ->
  new_sigma alpha s dim p i = Some (damping_new alpha s (dim * p) (new_degree dim p i)).
Proof.
  intros Hd Hp Hs. unfold new_sigma, damping_new, pow_opt.
  assert (D : (0 < dim * p)%nat) by (destruct Hd as [->|[->| ->]]; lia).
  assert (DR : 0 < INR (dim * p)) by (apply lt_0_INR; assumption).
  destruct (Nat.eqb_spec (dim * p) 0) as [E|_]; [lia|].
  destruct (Nat.eqb_spec (new_degree dim p i) 0) as [E|E].
  - rewrite E. cbn [INR]. unfold Rdiv. rewrite Rmult_0_l.
    destruct (Req_EM_T 0 0) as [_|N]; [|lra]. destruct (Rlt_dec 0 s); [reflexivity|lra].
  - destruct (Req_EM_T (INR (new_degree dim p i) / INR (dim * p)) 0) as [Z|_]; [|reflexivity].
    exfalso. apply Rmult_integral in Z. destruct Z as [Z|Z].
    + apply E. apply INR_eq. exact Z.
    + assert (0 < / INR (dim * p)) by (apply Rinv_0_lt_compat; assumption). lra.
Qed.

Section New.
  Variables (leg : nat -> R -> R) (shape : nat -> point -> R) (q : quadrature) (inv : nat -> matrix -> matrix) (dim p : nat).
  Variables (alpha s : R).
  Hypothesis Hdim : dim123 dim.
  Hypothesis Hp : (1 <= p)%nat.
  Hypothesis Hs : 0 < s.
  Let n := Nat.pow (p + 1) dim.

  Lemma new_cell_core f : exists h, new_cell leg shape (qn q) (qpoint q) (qweight q) inv alpha s dim p f = Some h /\
    forall i, h i = core leg shape q inv dim p (fun i => damping_new alpha s (dim * p) (new_degree dim p i)) f i.
  Proof.
    unfold new_cell.
    rewrite (proj2 (forallb_forall _ _)) by (intros i _; rewrite new_sigma_some by assumption; reflexivity).
    eexists. split; [reflexivity|]. intros i. apply mv_ext. intros k _. rewrite new_sigma_some by assumption. reflexivity.
  Qed.

  Hypothesis Hinv : inverts inv.
  Hypothesis Hres : resolved dim p q leg shape.

  Lemma new_modes f g : coefficients n q shape (basis leg dim p) f g ->
    exists h, new_cell leg shape (qn q) (qpoint q) (qweight q) inv alpha s dim p f = Some h /\
    coefficients n q shape (basis leg dim p) h (fun i => damping_new alpha s (dim * p) (new_degree dim p i) * g i).
  Proof.
    intros H. destruct (new_cell_core f) as (h & E & Hh). exists h. split; [exact E|].
    apply (core_coefficients leg shape q inv dim p Hdim Hinv Hres
             (fun i => damping_new alpha s (dim * p) (new_degree dim p i))) in H.
    revert H. apply (coefficients_ext leg shape q inv dim p Hdim Hinv Hres); [|reflexivity].
    intros k _. symmetry. apply Hh.
  Qed.

  Lemma new_mean f : mean_mode dim p q leg ->
    exists h, new_cell leg shape (qn q) (qpoint q) (qweight q) inv alpha s dim p f = Some h /\
    integral q (expansion n shape h) = integral q (expansion n shape f).
  Proof.
    intros M. destruct (new_cell_core f) as (h & E & Hh). exists h. split; [exact E|]. change n with (modes dim p).
    rewrite <- (core_mean leg shape q inv dim p Hdim Hinv Hres
                  (fun i => damping_new alpha s (dim * p) (new_degree dim p i)) f M).
    - apply sumf_ext. intros a _. f_equal. apply sumf_ext. intros k _. rewrite Hh. reflexivity.
    - assert (Z : new_degree dim p 0 = 0%nat).
      { destruct Hdim as [->|[->| ->]]; cbn [new_degree]; repeat rewrite ?Nat.div_0_l, ?Nat.mod_0_l by lia; reflexivity. }
      rewrite Z. unfold damping_new. rewrite Nat.eqb_refl, Rmult_0_r. apply exp_0.
  Qed.
End New.

(** ** An inversion that works: entries as least upper bounds of one-element sets. *)
Definition entry_set (n : nat) (X : matrix) (i j : nat) (t : R) : Prop :=
  if (Nat.ltb i n && Nat.ltb j n)%bool
  then (regular n X /\ exists Y, inverse_of n X Y /\ t = Y i j) \/ (~ regular n X /\ t = 0)
  else t = 0.

Lemma inverse_unique n X Y Z i j : inverse_of n X Y -> inverse_of n X Z -> (i < n)%nat -> (j < n)%nat -> Y i j = Z i j.
Proof.
  intros HY HZ Hi Hj.
  rewrite <- (delta_col n j i Hj Y), <- (delta_col n j i Hj Z).
  rewrite (mv_ext n Y _ (mvmult n X (mvmult n Z (fun l => delta l j)))).
  - rewrite (mv_inverse n Y X) by (first [apply inverse_sym; assumption | assumption]). reflexivity.
  - intros k Hk. symmetry. apply (mv_inverse n X Z (fun l => delta l j)); assumption.
Qed.

Lemma entry_nonempty n X i j : exists t, entry_set n X i j t.
Proof.
  unfold entry_set. destruct (Nat.ltb i n && Nat.ltb j n)%bool; [|eauto].
  destruct (classic (regular n X)) as [H|H]; [|eauto].
  destruct H as [Y HY]. exists (Y i j). left. split; [exists Y; assumption|eauto].
Qed.

Lemma entry_unique n X i j t u : entry_set n X i j t -> entry_set n X i j u -> t = u.
Proof.
  unfold entry_set. destruct (Nat.ltb i n && Nat.ltb j n)%bool eqn:E; [|congruence].
  apply andb_prop in E. destruct E as [Ei Ej]. apply Nat.ltb_lt in Ei. apply Nat.ltb_lt in Ej.
  intros [(H & Y & HY & ->)|(H & ->)] [(H' & Z & HZ & ->)|(H' & ->)]; try contradiction; try reflexivity.
  apply (inverse_unique n X); assumption.
Qed.

Lemma entry_bound n X i j : bound (entry_set n X i j).
Proof.
  destruct (entry_nonempty n X i j) as [t Ht]. exists t. intros u Hu. right. apply (entry_unique n X i j); assumption.
Qed.

Definition true_inverse (n : nat) (X : matrix) : matrix := fun i j =>
  proj1_sig (completeness (entry_set n X i j) (entry_bound n X i j) (entry_nonempty n X i j)).

Lemma true_inverse_entry n X i j t : entry_set n X i j t -> true_inverse n X i j = t.
Proof.
  intros H. unfold true_inverse. destruct (completeness _ _ _) as [m [U L]]. cbn [proj1_sig].
  apply Rle_antisym; [apply L; intros u Hu; right; apply (entry_unique n X i j); assumption|apply U; assumption].
Qed.

Lemma true_inverse_inverts : inverts true_inverse.
Proof.
  intros n X [Y HY].
  assert (E : forall i j, (i < n)%nat -> (j < n)%nat -> true_inverse n X i j = Y i j).
  { intros i j Hi Hj. apply true_inverse_entry. unfold entry_set.
    rewrite (proj2 (Nat.ltb_lt i n) Hi), (proj2 (Nat.ltb_lt j n) Hj). left. split; [exists Y; assumption|eauto]. }
  intros i j Hi Hj. destruct (HY i j Hi Hj) as [A B].
  split; [rewrite <- A|rewrite <- B]; apply sumf_ext; intros k Hk; rewrite E by assumption; reflexivity.
Qed.

(** ** General refutation: two different factors for one mode. *)
Lemma wrong_factor leg shape q inv dim p sigma tau k :
  dim123 dim -> inverts inv -> resolved dim p q leg shape ->
  (k < Nat.pow (p + 1) dim)%nat -> sigma k <> tau k ->
  exists f g, coefficients (Nat.pow (p + 1) dim) q shape (basis leg dim p) f g /\
    forall h, (forall i, (i < Nat.pow (p + 1) dim)%nat -> h i = core leg shape q inv dim p sigma f i) ->
    ~ coefficients (Nat.pow (p + 1) dim) q shape (basis leg dim p) h (fun i => tau i * g i).
Proof.
  intros Hd Hi Hr Hk Hne.
  destruct (coefficients_exist leg shape q inv dim p Hd Hi Hr (fun _ => 1)) as [f Hf].
  exists f, (fun _ => 1). split; [exact Hf|]. intros h Hh C.
  assert (C' := core_coefficients leg shape q inv dim p Hd Hi Hr sigma f _ Hf).
  apply (coefficients_ext leg shape q inv dim p Hd Hi Hr _ h _ (fun i => sigma i * 1)) in C';
    [|intros; symmetry; apply Hh; assumption|reflexivity].
  assert (U := coefficients_unique leg shape q inv dim p Hd Hi Hr h _ _ C' C k Hk). cbn beta in U. lra.
Qed.
