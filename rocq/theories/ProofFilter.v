(** Spectral filter: projection, degrees, mesh. *)
From Verif Require Import Prelude BigSum ModelFilter SpecFilter.
Local Open Scope R_scope.

(** ** Matrices *)
Lemma mv_ext n X f g : (forall k, (k < n)%nat -> f k = g k) -> forall i, mvmult n X f i = mvmult n X g i.
Proof. intros H i. apply sumf_ext. intros j Hj. rewrite H by assumption. reflexivity. Qed.

Lemma mv_mm n X Y f i : mvmult n (mmult n X Y) f i = mvmult n X (mvmult n Y f) i.
Proof.
  unfold mvmult, mmult.
  rewrite (sumf_ext n _ (fun j => sumf n (fun k => X i k * Y k j * f j))) by (intros; rewrite <- sumf_scal_r; reflexivity).
  rewrite sumf_swap. apply sumf_ext. intros k _. rewrite <- sumf_scal. apply sumf_ext. intros; ring.
Qed.

Lemma mv_inverse n X Y f i : inverse_of n X Y -> (i < n)%nat -> mvmult n X (mvmult n Y f) i = f i.
Proof.
  intros H Hi. rewrite <- mv_mm. unfold mvmult.
  rewrite (sumf_ext n _ (fun j => delta i j * f j)).
  - apply sumf_delta; assumption.
  - intros j Hj. unfold mmult. destruct (H i j Hi Hj) as [-> _]. reflexivity.
Qed.

Lemma inverse_sym n X Y : inverse_of n X Y -> inverse_of n Y X.
Proof. intros H i j Hi Hj. destruct (H i j Hi Hj). split; assumption. Qed.

Lemma delta_col n k i : (k < n)%nat -> forall X : nat -> nat -> R, mvmult n X (fun j => delta j k) i = X i k.
Proof.
  intros Hk X. unfold mvmult. rewrite (sumf_ext n _ (fun j => delta k j * X i j)).
  - apply (sumf_delta n k (fun j => X i j)); assumption.
  - intros j _. rewrite (delta_sym j k). ring.
Qed.

(** (X Y)^-1 = Y^-1 X^-1. *)
Lemma mm_entry n X Y i j : (j < n)%nat -> sumf n (fun k => X i k * Y k j) = mvmult n X (mvmult n Y (fun l => delta l j)) i.
Proof. intros Hj. unfold mvmult at 1. apply sumf_ext. intros k _. rewrite delta_col by assumption. reflexivity. Qed.

Lemma mm_delta n X Y j : forall k, mvmult n (mmult n X Y) (fun l => delta l j) k = mvmult n X (mvmult n Y (fun l => delta l j)) k.
Proof. intros k. apply mv_mm. Qed.

Lemma inverse_product n X X' Y Y' : inverse_of n X X' -> inverse_of n Y Y' -> inverse_of n (mmult n X Y) (mmult n Y' X').
Proof.
  intros HX HY i j Hi Hj. split; rewrite mm_entry by assumption.
  - rewrite (mv_ext n _ _ _ (fun k _ => mm_delta n Y' X' j k)), mv_mm.
    rewrite (mv_ext n X _ (mvmult n X' (fun l => delta l j))).
    + apply (mv_inverse n X X' (fun l => delta l j)); assumption.
    + intros k Hk. apply (mv_inverse n Y Y'); assumption.
  - rewrite (mv_ext n _ _ _ (fun k _ => mm_delta n X Y j k)), mv_mm.
    rewrite (mv_ext n Y' _ (mvmult n Y (fun l => delta l j))).
    + apply (mv_inverse n Y' Y (fun l => delta l j)); [apply inverse_sym|]; assumption.
    + intros k Hk. apply (mv_inverse n X' X); [apply inverse_sym|]; assumption.
Qed.

(** ** The basis *)
Lemma pow1 p : Nat.pow (p + 1) 1 = (p + 1)%nat. Proof. cbn. lia. Qed.
Lemma pow2 p : Nat.pow (p + 1) 2 = ((p + 1) * (p + 1))%nat. Proof. cbn. lia. Qed.

Lemma degrees_1 p i : degrees_of 1 p i = [i].
Proof. cbn [degrees_of Nat.pow]. rewrite Nat.div_1_r. reflexivity. Qed.
Lemma degrees_2 p i : degrees_of 2 p i = [(i / (p + 1))%nat; (i mod (p + 1))%nat].
Proof. change (degrees_of 2 p i) with ((i / Nat.pow (p + 1) 1)%nat :: degrees_of 1 p (i mod Nat.pow (p + 1) 1)).
  rewrite pow1, degrees_1. reflexivity. Qed.
Lemma mod_mod_mul i a : (0 < a)%nat -> ((i mod (a * a)) mod a = i mod a)%nat.
Proof.
  intros Ha. rewrite Nat.mod_mul_r by lia. rewrite (Nat.mul_comm a), Nat.mod_add by lia. apply Nat.mod_mod; lia.
Qed.
Lemma degrees_3 p i : degrees_of 3 p i
  = [(i / ((p + 1) * (p + 1)))%nat; ((i mod ((p + 1) * (p + 1))) / (p + 1))%nat; (i mod (p + 1))%nat].
Proof. change (degrees_of 3 p i) with ((i / Nat.pow (p + 1) 2)%nat :: degrees_of 2 p (i mod Nat.pow (p + 1) 2)).
  rewrite pow2, degrees_2, mod_mod_mul by lia. reflexivity. Qed.

Definition dim123 (dim : nat) : Prop := dim = 1%nat \/ dim = 2%nat \/ dim = 3%nat.

Lemma legendre_basis leg dim p i x : dim123 dim -> evaluateLegendreND leg dim p i x = basis leg dim p i x.
Proof.
  unfold basis. intros [->|[->| ->]]; [rewrite degrees_1|rewrite degrees_2|rewrite degrees_3]; cbn [evaluateLegendreND mode]; ring.
Qed.

Section Cell.
  Variables (leg : nat -> R -> R) (shape : nat -> point -> R) (q : quadrature) (inv : nat -> matrix -> matrix) (dim p : nat).
  Hypothesis Hdim : dim123 dim.
  Hypothesis Hinv : inverts inv.
  Hypothesis Hres : resolved dim p q leg shape.
  Let n := modes dim p.
  Let psi := basis leg dim p.
  Let To := to_legendre leg shape (qn q) (qpoint q) (qweight q) inv dim p.
  Let From := from_legendre leg shape (qn q) (qpoint q) (qweight q) inv dim p.
  Let L := quad_legendre leg (qn q) (qpoint q) (qweight q) dim p.
  Let S' := quad_source leg shape (qn q) (qpoint q) (qweight q) dim p.

  Lemma L_gram k i : L k i = gram q psi psi k i.
  Proof. apply sumf_ext. intros a _. rewrite !legendre_basis by assumption. unfold psi. ring. Qed.
  Lemma S_gram k i : S' k i = gram q psi shape k i.
  Proof. apply sumf_ext. intros a _. rewrite !legendre_basis by assumption. unfold psi. ring. Qed.

  Lemma regular_ext m X Y : (forall i j, X i j = Y i j) -> regular m X -> regular m Y.
  Proof.
    intros E [Z HZ]. exists Z. intros i j Hi Hj. destruct (HZ i j Hi Hj) as [A B].
    split; [rewrite <- A|rewrite <- B]; apply sumf_ext; intros; rewrite E; reflexivity.
  Qed.

  Lemma L_inv : inverse_of n L (inv n L).
  Proof. apply Hinv. apply (regular_ext n (gram q psi psi)); [intros; symmetry; apply L_gram|apply Hres]. Qed.
  Lemma S_reg : regular n S'.
  Proof. apply (regular_ext n (gram q psi shape)); [intros; symmetry; apply S_gram|apply Hres]. Qed.
  Lemma To_inv : inverse_of n To From.
  Proof.
    apply Hinv. destruct S_reg as [Z HZ]. exists (mmult n Z L).
    apply inverse_product; [apply inverse_sym, L_inv|exact HZ].
  Qed.

  Lemma gram_mv phi f k : integral q (fun x => expansion n phi f x * psi k x) = mvmult n (gram q psi phi) f k.
  Proof.
    unfold integral, expansion, mvmult, gram, integral.
    rewrite (sumf_ext (qn q) _ (fun a => sumf n (fun i => qweight q a * (phi i (qpoint q a) * psi k (qpoint q a)) * f i))).
    - rewrite sumf_swap. apply sumf_ext. intros i _. rewrite <- sumf_scal_r. reflexivity.
    - intros a _. rewrite <- sumf_scal_r, <- sumf_scal. apply sumf_ext. intros; ring.
  Qed.

  Lemma mv_mat m X Y f k : (forall i j, X i j = Y i j) -> mvmult m X f k = mvmult m Y f k.
  Proof. intros E. apply sumf_ext. intros; rewrite E; reflexivity. Qed.

  Lemma coefficients_iff f g : coefficients n q shape psi f g <-> forall k, (k < n)%nat -> mvmult n To f k = g k.
  Proof.
    assert (C : coefficients n q shape psi f g <-> forall k, (k < n)%nat -> mvmult n S' f k = mvmult n L g k).
    { split; intros H k Hk; specialize (H k Hk).
      - rewrite !gram_mv in H. rewrite (mv_mat n S' _ f k (S_gram)), (mv_mat n L _ g k L_gram). exact H.
      - rewrite !gram_mv. rewrite (mv_mat n S' _ f k (S_gram)), (mv_mat n L _ g k L_gram) in H. exact H. }
    rewrite C. split; intros H k Hk.
    - change To with (mmult n (inv n L) S'). rewrite mv_mm, (mv_ext n _ _ _ H).
      apply mv_inverse; [apply inverse_sym, L_inv|assumption].
    - rewrite (mv_ext n L g (mvmult n To f)) by (intros; symmetry; apply H; assumption).
      change To with (mmult n (inv n L) S').
      rewrite (mv_ext n L _ (mvmult n (inv n L) (mvmult n S' f))) by (intros; apply mv_mm).
      symmetry. apply (mv_inverse n L (inv n L) (mvmult n S' f)); [apply L_inv|assumption].
  Qed.

  (** A filter that multiplies the modes by [sigma]. *)
  Definition core (sigma : nat -> R) (f : nat -> R) : nat -> R := mvmult n From (fun i => sigma i * mvmult n To f i).

  Lemma core_coefficients sigma f g :
    coefficients n q shape psi f g -> coefficients n q shape psi (core sigma f) (fun i => sigma i * g i).
  Proof.
    rewrite !coefficients_iff. intros H k Hk. unfold core. rewrite (mv_inverse n To From) by (apply To_inv || assumption).
    rewrite H by assumption. reflexivity.
  Qed.

  Lemma coefficients_unique f g g' :
    coefficients n q shape psi f g -> coefficients n q shape psi f g' -> forall k, (k < n)%nat -> g k = g' k.
  Proof. rewrite !coefficients_iff. intros H H' k Hk. rewrite <- H, <- H' by assumption. reflexivity. Qed.

  Lemma coefficients_exist g : exists f, coefficients n q shape psi f g.
  Proof.
    exists (mvmult n From g). apply coefficients_iff. intros k Hk. apply (mv_inverse n To From); [apply To_inv|assumption].
  Qed.

  Lemma coefficients_ext f f' g g' : (forall k, (k < n)%nat -> f k = f' k) -> (forall k, (k < n)%nat -> g k = g' k) ->
    coefficients n q shape psi f g -> coefficients n q shape psi f' g'.
  Proof.
    rewrite !coefficients_iff. intros E E' H k Hk. rewrite <- E' by assumption. rewrite <- H by assumption.
    apply mv_ext. intros; symmetry; apply E; assumption.
  Qed.

  Lemma core_ext sigma f f' : (forall k, (k < n)%nat -> f k = f' k) -> forall i, core sigma f i = core sigma f' i.
  Proof. intros H i. apply mv_ext. intros k _. rewrite (mv_ext n To f f' H). reflexivity. Qed.

  (** The mean. *)
  Lemma mean_of f g : mean_mode dim p q leg -> coefficients n q shape psi f g ->
    integral q (expansion n shape f) = integral q (fun _ => g 0%nat * psi 0%nat (fun _ => 0)).
  Proof.
    intros (c & Hc & Hleg & Horth) H.
    assert (Hn : (0 < n)%nat). { unfold n, modes. generalize (Nat.pow_nonzero (p + 1) dim). lia. }
    assert (P : exists d, d <> 0 /\ forall x, psi 0%nat x = d).
    { unfold psi, basis. destruct Hdim as [->|[->| ->]]; [rewrite degrees_1|rewrite degrees_2|rewrite degrees_3];
        repeat rewrite ?Nat.div_0_l, ?Nat.mod_0_l by lia; cbn [mode].
      - exists (c * 1). split; [lra|]. intros; rewrite !Hleg; reflexivity.
      - exists (c * (c * 1)). split; [|intros; rewrite !Hleg; reflexivity].
        repeat apply Rmult_integral_contrapositive_currified; lra.
      - exists (c * (c * (c * 1))). split; [|intros; rewrite !Hleg; reflexivity].
        repeat apply Rmult_integral_contrapositive_currified; lra. }
    destruct P as (d & Hd & P). specialize (H 0%nat Hn).
    assert (A : integral q (fun x => expansion n shape f x * psi 0%nat x) = integral q (expansion n shape f) * d).
    { unfold integral. rewrite <- sumf_scal_r. apply sumf_ext. intros. rewrite P. ring. }
    assert (B : integral q (fun x => expansion n psi g x * psi 0%nat x) = integral q (fun _ => g 0%nat * d) * d).
    { rewrite gram_mv. unfold mvmult.
      rewrite (sumf_ext n _ (fun i => delta 0 i * (gram q psi psi 0 0 * g 0%nat))).
      - rewrite sumf_delta by assumption. unfold gram, integral. rewrite <- !sumf_scal_r.
        apply sumf_ext. intros; rewrite !P; ring.
      - intros i Hi. unfold delta. destruct (Nat.eqb_spec 0 i) as [<-|Hne]; [ring|].
        assert (E : gram q psi psi 0 i = integral q (psi i) * d).
        { unfold gram, integral. rewrite <- sumf_scal_r. apply sumf_ext. intros; rewrite P; ring. }
        rewrite E. unfold psi at 1. rewrite Horth by (unfold n, modes in Hi; lia). ring. }
    rewrite A, B in H. apply Rmult_eq_reg_r in H; [|assumption]. rewrite H. unfold integral.
    apply sumf_ext. intros; rewrite P; reflexivity.
  Qed.

  Lemma core_mean sigma f : mean_mode dim p q leg -> sigma 0%nat = 1 ->
    integral q (expansion n shape (core sigma f)) = integral q (expansion n shape f).
  Proof.
    intros M H0.
    assert (C : coefficients n q shape psi f (mvmult n To f)) by (apply coefficients_iff; reflexivity).
    rewrite (mean_of f _ M C), (mean_of _ _ M (core_coefficients sigma f _ C)). cbn beta. rewrite H0.
    unfold integral. apply sumf_ext. intros; ring.
  Qed.
End Cell.

(** ** Degrees *)
Definition code_degree (by_sum : bool) (dim p i : nat) : nat :=
  if by_sum then snd (degrees dim p i) else fst (degrees dim p i).

Lemma max_if a b : (if Nat.ltb a b then b else a) = Nat.max a b.
Proof. destruct (Nat.ltb_spec a b); lia. Qed.

Lemma code_degree_12 by_sum dim p i : dim = 1%nat \/ dim = 2%nat -> code_degree by_sum dim p i = counted by_sum (degrees_of dim p i).
Proof.
  intros [->| ->]; [rewrite degrees_1|rewrite degrees_2]; unfold code_degree, counted, total_degree, max_degree;
    destruct by_sum; cbn [degrees fst snd fold_right]; rewrite ?max_if; lia.
Qed.

Lemma code_degree_3 by_sum p i : code_degree by_sum 3 p i = counted by_sum (overlooked (degrees_of 3 p i)).
Proof.
  rewrite degrees_3. unfold code_degree, counted, total_degree, max_degree.
  destruct by_sum; cbn [degrees fst snd fold_right overlooked]; rewrite Nat.div_mul, ?max_if by lia; lia.
Qed.

(** ** The exponential filter *)
Lemma exp_core leg shape q inv alpha s Nc by_sum dim p f i :
  exp_cell leg shape (qn q) (qpoint q) (qweight q) inv alpha s Nc by_sum dim p f i
  = core leg shape q inv dim p (fun i => damping alpha s Nc (highest by_sum dim p) (code_degree by_sum dim p i)) f i.
Proof.
  apply mv_ext. intros k _. unfold damping. fold (code_degree by_sum dim p k).
  rewrite Nat.ltb_antisym. unfold highest. destruct (Nat.leb Nc (code_degree by_sum dim p k)); cbn [negb]; [reflexivity|ring].
Qed.

(** ** The mesh *)
Lemma write_other dofs v x d : ~ In d dofs -> write dofs v x d = x d.
Proof.
  unfold write. intros H.
  assert (G : forall l x, (forall k, In k l -> (k < length dofs)%nat) ->
    fold_left (fun x k => fun d => if Nat.eqb d (nth k dofs 0%nat) then v k else x d) l x d = x d).
  { induction l as [|k l IH]; intros y Hl; cbn [fold_left]; [reflexivity|].
    rewrite IH by (intros; apply Hl; right; assumption).
    destruct (Nat.eqb_spec d (nth k dofs 0%nat)) as [->|]; [|reflexivity].
    exfalso. apply H. apply nth_In. apply Hl. left; reflexivity. }
  apply G. intros k Hk. apply in_seq in Hk. lia.
Qed.

Lemma write_at dofs v x k : NoDup dofs -> (k < length dofs)%nat -> write dofs v x (nth k dofs 0%nat) = v k.
Proof.
  intros Hd Hk. unfold write.
  replace (length dofs) with (k + (1 + (length dofs - k - 1)))%nat by lia.
  rewrite seq_app, fold_left_app, seq_app, fold_left_app. cbn [List.seq fold_left plus].
  set (y := fold_left _ (List.seq 0 k) x). clearbody y.
  assert (G : forall l y, (forall j, In j l -> (k < j < length dofs)%nat) ->
    fold_left (fun x k => fun d => if Nat.eqb d (nth k dofs 0%nat) then v k else x d) l y (nth k dofs 0%nat) = y (nth k dofs 0%nat)).
  { induction l as [|j l IH]; intros z Hl; cbn [fold_left]; [reflexivity|].
    rewrite IH by (intros; apply Hl; right; assumption).
    destruct (Nat.eqb_spec (nth k dofs 0%nat) (nth j dofs 0%nat)) as [E|]; [|reflexivity].
    exfalso. assert (J := Hl j (or_introl eq_refl)). apply (proj1 (NoDup_nth dofs 0%nat) Hd) in E; lia. }
  rewrite G.
  - rewrite Nat.eqb_refl. reflexivity.
  - intros j Hj. apply in_seq in Hj. lia.
Qed.

Lemma apply_other cf cells x d : ~ In d (concat cells) -> applyFilter cf cells x d = x d.
Proof.
  unfold applyFilter. revert x. induction cells as [|c cells IH]; intros x H; cbn [fold_left]; [reflexivity|].
  cbn [concat] in H. rewrite in_app_iff in H. rewrite IH by tauto. apply write_other. tauto.
Qed.

Lemma NoDup_app_inv {A} (l m : list A) : NoDup (l ++ m) -> NoDup l /\ NoDup m /\ forall a, In a l -> ~ In a m.
Proof.
  induction l as [|a l IH]; cbn; intros H; [repeat split; [constructor|exact H|tauto]|].
  inversion H as [|? ? Hn Hd]; subst. destruct (IH Hd) as (H1 & H2 & H3). rewrite in_app_iff in Hn.
  repeat split; [constructor; tauto|exact H2|]. intros b [<-|Hb]; [tauto|apply H3; assumption].
Qed.

Lemma apply_cell cf n cells x c : 
  (forall f g, (forall k, (k < n)%nat -> f k = g k) -> forall i, cf f i = cf g i) ->
  NoDup (concat cells) -> In c cells -> length c = n ->
  forall k, (k < n)%nat -> applyFilter cf cells x (nth k c 0%nat) = cf (fun k => x (nth k c 0%nat)) k.
Proof.
  intros Hext. unfold applyFilter. revert x. induction cells as [|c' cells IH]; intros x Hd Hin Hlen k Hk; [destruct Hin|].
  cbn [concat] in Hd. apply NoDup_app_inv in Hd. destruct Hd as (H1 & H2 & H3). cbn [fold_left].
  destruct Hin as [->|Hin].
  - change (applyFilter cf cells (write c (cf (fun k => x (nth k c 0%nat))) x) (nth k c 0%nat) = cf (fun k => x (nth k c 0%nat)) k).
    rewrite apply_other by (apply H3, nth_In; lia). apply write_at; [assumption|lia].
  - rewrite IH by assumption. apply Hext. intros j Hj. apply write_other. intros Hc.
    apply (H3 _ Hc). apply in_concat. exists c. split; [assumption|apply nth_In; lia].
Qed.
