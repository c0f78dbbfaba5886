(** Lagrange polynomials and their tensor products. *)
From Verif Require Import Prelude BigSum ModelSemiLagrangian SpecSemiLagrangian ModelBenchmarks ModelElements SpecElements ProofSemiLagrangian.
Local Open Scope R_scope.

(** ** Polynomials of one variable *)
Fixpoint deg (n : nat) (f : R -> R) : Prop :=
  match n with O => exists c, forall t, f t = c | S k => exists c g, deg k g /\ forall t, f t = c + t * g t end.
Lemma deg_ext n : forall f g, deg n f -> (forall t, g t = f t) -> deg n g.
Proof.
  destruct n as [|n]; cbn [deg].
  - intros f g [c H] E. exists c. intros t. rewrite E. apply H.
  - intros f g (c & h & Hh & H) E. exists c, h. split; [exact Hh|]. intros t. rewrite E. apply H.
Qed.
Lemma deg_const n c : deg n (fun _ => c).
Proof. revert c. induction n as [|n IH]; intros c; cbn [deg]; [exists c; reflexivity|]. exists c, (fun _ => 0). split; [apply IH|intros t; ring]. Qed.
Lemma deg_plus n : forall f g, deg n f -> deg n g -> deg n (fun t => f t + g t).
Proof.
  induction n as [|n IH]; cbn [deg].
  - intros f g [c Hc] [d Hd]. exists (c + d). intros t. rewrite Hc, Hd. reflexivity.
  - intros f g (c & f' & Hf & Ef) (d & g' & Hg & Eg). exists (c + d), (fun t => f' t + g' t). split; [apply IH; assumption|].
    intros t. rewrite Ef, Eg. ring.
Qed.
Lemma deg_scal n a : forall f, deg n f -> deg n (fun t => a * f t).
Proof.
  induction n as [|n IH]; cbn [deg].
  - intros f [c Hc]. exists (a * c). intros t. rewrite Hc. reflexivity.
  - intros f (c & f' & Hf & Ef). exists (a * c), (fun t => a * f' t). split; [apply IH; assumption|]. intros t. rewrite Ef. ring.
Qed.
Lemma deg_S n : forall f, deg n f -> deg (S n) f.
Proof.
  induction n as [|n IH].
  - intros f [c Hc]. exists c, (fun _ => 0). split; [exists 0; reflexivity|]. intros t. rewrite Hc. ring.
  - intros f (c & f' & Hf & Ef). exists c, f'. split; [apply IH; exact Hf|exact Ef].
Qed.
Lemma deg_le n m f : (n <= m)%nat -> deg n f -> deg m f.
Proof. induction 1 as [|m L IH]; [auto|]. intros H. apply deg_S. apply IH. exact H. Qed.
Lemma deg_t n f : deg n f -> deg (S n) (fun t => t * f t).
Proof. intros H. exists 0, f. split; [exact H|intros t; ring]. Qed.
Lemma deg_lin n f a b : deg n f -> deg (S n) (fun t => f t * ((t - a) / b)).
Proof.
  intros H. apply deg_ext with (f := fun t => / b * (t * f t) + - a / b * f t).
  - apply deg_plus; [apply deg_scal; apply deg_t; exact H|apply deg_S; apply deg_scal; exact H].
  - intros t. unfold Rdiv. ring.
Qed.
Lemma deg_pow n : forall k, (k <= n)%nat -> deg n (fun t => t ^ k).
Proof.
  intros k L. apply deg_le with (n := k); [exact L|]. clear n L. induction k as [|k IH]; [exists 1; reflexivity|]. exact (deg_t k _ IH).
Qed.
Lemma deg_sum n m (f : nat -> R -> R) : (forall i, (i < m)%nat -> deg n (f i)) -> deg n (fun t => sumf m (fun i => f i t)).
Proof.
  induction m as [|m IH]; intros H; cbn [sumf]; [apply deg_const|].
  apply (deg_plus n (fun t => sumf m (fun i => f i t)) (f m)); [apply IH; intros i Hi; apply H; lia|apply H; lia].
Qed.
Lemma deg_divide n : forall f x, deg (S n) f -> exists g, deg n g /\ forall t, f t = f x + (t - x) * g t.
Proof.
  induction n as [|n IH]; intros f x (c & g & Hg & E).
  - destruct Hg as [d Hd]. exists (fun _ => d). split; [exists d; reflexivity|]. intros t. rewrite !E, !Hd. ring.
  - destruct (IH g x Hg) as (h & Hh & Eh). exists (fun t => g t + x * h t). split.
    + apply deg_plus; [exact Hg|]. apply deg_S. apply deg_scal. exact Hh.
    + intros t. rewrite !E. rewrite (Eh t). ring.
Qed.
Lemma deg_roots n : forall f x, deg n f -> (forall i j, (i < j <= n)%nat -> x i <> x j) -> (forall i, (i <= n)%nat -> f (x i) = 0) -> forall t, f t = 0.
Proof.
  induction n as [|n IH]; intros f x Hf Hx H t.
  - destruct Hf as [c Hc]. rewrite Hc, <- (Hc (x 0%nat)). apply H. lia.
  - destruct (deg_divide n f (x (S n)) Hf) as (g & Hg & E). rewrite (H (S n)) in E by lia.
    rewrite E. rewrite (IH g x Hg); [ring| |].
    + intros i j L. apply Hx. lia.
    + intros i L. assert (A := E (x i)). rewrite (H i) in A by lia. assert (B : (x i - x (S n)) * g (x i) = 0) by lra.
      apply Rmult_integral in B. destruct B as [B|B]; [|exact B]. exfalso. apply (Hx i (S n)); [lia|lra].
Qed.

(** ** Lagrange polynomials *)
Lemma prodf_ext n f g : (forall i, (i < n)%nat -> f i = g i) -> prodf n f = prodf n g.
Proof. induction n as [|n IH]; intros H; cbn [prodf]; [reflexivity|]. rewrite IH, H by (auto; intros; apply H; lia). reflexivity. Qed.
Lemma prodf_one n f : (forall i, (i < n)%nat -> f i = 1) -> prodf n f = 1.
Proof. induction n as [|n IH]; intros H; cbn [prodf]; [reflexivity|]. rewrite IH, H by (auto; intros; apply H; lia). ring. Qed.
Lemma prodf_mult n f g : prodf n (fun i => f i * g i) = prodf n f * prodf n g.
Proof. induction n as [|n IH]; cbn [prodf]; [ring|]. rewrite IH. ring. Qed.

Definition distinct (n : nat) (x : nat -> R) : Prop := forall i j, (i < j <= n)%nat -> x i <> x j.
Section Lagrange.
  Variables (x : nat -> R) (n : nat).
  Hypothesis Hx : distinct n x.
  Lemma neq i j : (i <= n)%nat -> (j <= n)%nat -> i <> j -> x i <> x j.
  Proof.
    intros Hi Hj N. destruct (Nat.lt_ge_cases i j) as [L|L]; [apply Hx; lia|]. intros E. apply (Hx j i); [lia|]. symmetry. exact E.
  Qed.
  Lemma lagrange_delta i k : (i <= n)%nat -> (k <= n)%nat -> lagrange x n i (x k) = delta i k.
  Proof.
    intros Hi Hk. unfold lagrange, delta. destruct (Nat.eqb_spec i k) as [<-|N].
    - apply prodf_one. intros j Hj. destruct (Nat.eqb_spec j i) as [E|E]; [reflexivity|]. field. assert (A := neq i j Hi ltac:(lia) ltac:(auto)). lra.
    - apply (prodf_zero (S n) _ k); [lia|]. destruct (Nat.eqb_spec k i) as [E|E]; [congruence|]. unfold Rdiv. ring.
  Qed.
  Lemma deg_lagrange i : (i <= n)%nat -> deg n (lagrange x n i).
  Proof.
    intros Hi. unfold lagrange. set (f := fun (t : R) (j : nat) => if Nat.eqb j i then 1 else (t - x j) / (x i - x j)).
    assert (A : forall m, (m <= i)%nat -> deg m (fun t => prodf m (f t))).
    { induction m as [|m IH]; intros L; cbn [prodf]; [exists 1; reflexivity|].
      apply deg_ext with (f := fun t => prodf m (f t) * ((t - x m) / (x i - x m))); [apply deg_lin; apply IH; lia|].
      intros t. unfold f at 2. destruct (Nat.eqb_spec m i); [lia|reflexivity]. }
    assert (B : forall m, (i <= m)%nat -> deg m (fun t => prodf (S m) (f t))).
    { induction m as [|m IH]; intros L.
      - assert (i = 0)%nat by lia. subst i. cbn [prodf]. exists 1. intros t. unfold f. cbn. ring.
      - destruct (Nat.eq_dec i (S m)) as [E|E].
        + apply deg_ext with (f := fun t => prodf (S m) (f t)); [apply A; lia|]. intros t. change (prodf (S (S m)) (f t)) with (prodf (S m) (f t) * f t (S m)).
          unfold f at 2. rewrite <- E, Nat.eqb_refl. ring.
        + apply deg_ext with (f := fun t => prodf (S m) (f t) * ((t - x (S m)) / (x i - x (S m)))); [apply deg_lin; apply IH; lia|].
          intros t. change (prodf (S (S m)) (f t)) with (prodf (S m) (f t) * f t (S m)). unfold f at 2. destruct (Nat.eqb_spec (S m) i); [lia|reflexivity]. }
    exact (B n Hi).
  Qed.
  Lemma interpolation f : deg n f -> forall t, sumf (S n) (fun i => f (x i) * lagrange x n i t) = f t.
  Proof.
    intros Hf t. enough (E : sumf (S n) (fun i => f (x i) * lagrange x n i t) + - 1 * f t = 0) by lra. revert t.
    apply (deg_roots n (fun t => sumf (S n) (fun i => f (x i) * lagrange x n i t) + - 1 * f t) x).
    - apply deg_plus; [|apply deg_scal; exact Hf]. apply (deg_sum n (S n) (fun i t => f (x i) * lagrange x n i t)).
      intros i Hi. apply deg_scal. apply deg_lagrange. lia.
    - exact Hx.
    - intros k Hk. rewrite (sumf_ext _ _ (fun i => delta k i * f (x i))).
      + rewrite sumf_delta by lia. ring.
      + intros i Hi. rewrite lagrange_delta by lia. unfold delta. rewrite (Nat.eqb_sym i k). ring.
  Qed.
End Lagrange.

(** ** Lexicographic numbers *)
Lemma sumf_add_range a b F : sumf (a + b) F = sumf a F + sumf b (fun i => F (a + i)%nat).
Proof.
  induction b as [|b IH]; [rewrite Nat.add_0_r; cbn [sumf]; ring|]. rewrite Nat.add_succ_r. cbn [sumf]. rewrite IH. ring.
Qed.
Lemma sumf_mul_range m M F : sumf (m * M) F = sumf m (fun r => sumf M (fun q => F (r * M + q)%nat)).
Proof.
  induction m as [|m IH]; [reflexivity|]. cbn [sumf]. rewrite <- IH.
  replace (S m * M)%nat with (m * M + M)%nat by lia. apply sumf_add_range.
Qed.
Lemma pow_pos_nat m D : (0 < m)%nat -> (0 < m ^ D)%nat.
Proof. intros H. induction D as [|D IH]; cbn [Nat.pow]; [lia|]. apply Nat.mul_pos_pos; assumption. Qed.
Lemma digit_low m D r q d : (0 < m)%nat -> (d < D)%nat -> digit m d (r * m ^ D + q) = digit m d q.
Proof.
  intros Hm L. unfold digit. assert (P := pow_pos_nat m d Hm). assert (E : (m ^ D = m ^ (D - 1 - d) * m * m ^ d)%nat).
  { rewrite (Nat.mul_comm (m ^ (D - 1 - d)) m). rewrite <- Nat.pow_succ_r'. rewrite <- Nat.pow_add_r. f_equal. lia. }
  rewrite E. replace (r * (m ^ (D - 1 - d) * m * m ^ d) + q)%nat with (r * m ^ (D - 1 - d) * m * m ^ d + q)%nat by ring.
  rewrite Nat.div_add_l by lia. rewrite Nat.add_comm. apply Nat.mod_add. lia.
Qed.
Lemma digit_high m D r q : (r < m)%nat -> (q < m ^ D)%nat -> digit m D (r * m ^ D + q) = r.
Proof.
  intros Hr Hq. unfold digit. rewrite Nat.div_add_l by lia. rewrite (Nat.div_small q) by lia. rewrite Nat.add_0_r. apply Nat.mod_small. exact Hr.
Qed.
Lemma digit_lt m d k : (0 < m)%nat -> (digit m d k < m)%nat.
Proof. intros H. unfold digit. apply Nat.mod_upper_bound. lia. Qed.

Lemma tensor_sum m D (A : nat -> nat -> R) : (0 < m)%nat ->
  sumf (m ^ D)%nat (fun k => prodf D (fun d => A d (digit m d k))) = prodf D (fun d => sumf m (A d)).
Proof.
  intros Hm. induction D as [|D IH]; [cbn; ring|].
  rewrite Nat.pow_succ_r', sumf_mul_range. cbn [prodf]. rewrite <- IH.
  rewrite <- (sumf_scal m (sumf (m ^ D)%nat (fun k => prodf D (fun d => A d (digit m d k)))) (A D)).
  apply sumf_ext. intros r Hr. rewrite <- sumf_scal_r. apply sumf_ext. intros q Hq.
  rewrite digit_high by assumption. f_equal. apply prodf_ext. intros d Hd. rewrite digit_low by assumption. reflexivity.
Qed.

(** The number with given digits. *)
Fixpoint number (m D : nat) (w : nat -> nat) : nat := match D with O => 0 | S k => w k * m ^ k + number m k w end%nat.
Lemma number_lt m D w : (forall d, (d < D)%nat -> (w d < m)%nat) -> (number m D w < m ^ D)%nat.
Proof.
  induction D as [|D IH]; intros H; cbn [number]; [cbn; lia|]. assert (A := IH ltac:(intros; apply H; lia)). assert (B := H D ltac:(lia)).
  rewrite Nat.pow_succ_r'. nia.
Qed.
Lemma digit_number m D w : (forall d, (d < D)%nat -> (w d < m)%nat) -> forall d, (d < D)%nat -> digit m d (number m D w) = w d.
Proof.
  induction D as [|D IH]; intros H d L; [lia|]. cbn [number]. assert (P : (0 < m)%nat) by (specialize (H d L); lia).
  destruct (Nat.eq_dec d D) as [->|N].
  - apply digit_high; [apply H; lia|]. apply number_lt. intros; apply H; lia.
  - rewrite digit_low by lia. apply IH; [intros; apply H; lia|lia].
Qed.
Lemma number_digits m D k : (0 < m)%nat -> (k < m ^ D)%nat -> number m D (fun d => digit m d k) = k.
Proof.
  intros Hm. revert k. induction D as [|D IH]; intros k Hk; cbn [number]; [cbn in Hk; lia|].
  assert (P := pow_pos_nat m D Hm). assert (E := Nat.div_mod k (m ^ D) ltac:(lia)). set (r := (k / m ^ D)%nat) in *. set (q := (k mod m ^ D)%nat) in *.
  assert (Hq : (q < m ^ D)%nat) by (apply Nat.mod_upper_bound; lia).
  assert (Hr : (r < m)%nat) by (apply Nat.div_lt_upper_bound; [lia|]; rewrite Nat.pow_succ_r' in Hk; lia).
  replace k with (r * m ^ D + q)%nat by lia. rewrite digit_high by assumption.
  assert (X : number m D (fun d => digit m d (r * m ^ D + q)) = number m D (fun d => digit m d q)).
  { enough (Y : forall j, (j <= D)%nat -> number m j (fun d => digit m d (r * m ^ D + q)) = number m j (fun d => digit m d q)) by (apply Y; lia).
    induction j as [|j IHj]; intros Hj; cbn [number]; [reflexivity|]. rewrite digit_low by lia. rewrite IHj by lia. reflexivity. }
  rewrite X, IH by exact Hq. reflexivity.
Qed.
Lemma digit_inj m D j k : (0 < m)%nat -> (j < m ^ D)%nat -> (k < m ^ D)%nat -> (forall d, (d < D)%nat -> digit m d j = digit m d k) -> j = k.
Proof.
  intros Hm Hj Hk H. rewrite <- (number_digits m D j Hm Hj), <- (number_digits m D k Hm Hk).
  clear Hj Hk. induction D as [|D IH]; cbn [number]; [reflexivity|]. rewrite H by lia. rewrite IH; [reflexivity|]. intros; apply H; lia.
Qed.
Lemma digits_differ m D j k : (0 < m)%nat -> (j < m ^ D)%nat -> (k < m ^ D)%nat -> j <> k -> exists d, (d < D)%nat /\ digit m d j <> digit m d k.
Proof.
  intros Hm Hj Hk N.
  assert (Dec : (exists d, (d < D)%nat /\ digit m d j <> digit m d k) \/ forall d, (d < D)%nat -> digit m d j = digit m d k).
  { clear. induction D as [|D IH]; [right; intros; lia|]. destruct IH as [(d & L & E)|E]; [left; exists d; split; [lia|exact E]|].
    destruct (Nat.eq_dec (digit m D j) (digit m D k)) as [F|F]; [right|left; exists D; split; [lia|exact F]].
    intros d L. destruct (Nat.eq_dec d D) as [->|M]; [exact F|apply E; lia]. }
  destruct Dec as [H|H]; [exact H|]. exfalso. apply N. exact (digit_inj m D j k Hm Hj Hk H).
Qed.

(** ** Tensor products *)
Section Tensor.
  Variables (x : nat -> R) (n D : nat).
  Hypothesis Hx : distinct n x.
  Let el := tensor_element x n D.
  Lemma tensor_delta j k u : (j < el_dofs el)%nat -> (k < el_dofs el)%nat -> (forall d, (d < D)%nat -> u d = el_node el k d) -> el_shape el j u = delta j k.
  Proof.
    unfold el. cbn [tensor_element el_dofs el_node el_shape]. intros Hj Hk Hu. unfold delta. destruct (Nat.eqb_spec j k) as [<-|N].
    - apply prodf_one. intros d Hd. rewrite Hu by exact Hd. assert (A := digit_lt (S n) d j ltac:(lia)). rewrite (lagrange_delta x n Hx) by lia.
      unfold delta. rewrite Nat.eqb_refl. reflexivity.
    - destruct (digits_differ (S n) D j k ltac:(lia) Hj Hk N) as (d & Ld & Nd). apply (prodf_zero D _ d Ld). rewrite Hu by exact Ld.
      assert (A := digit_lt (S n) d j ltac:(lia)). assert (B := digit_lt (S n) d k ltac:(lia)). rewrite (lagrange_delta x n Hx) by lia.
      unfold delta. destruct (Nat.eqb_spec (digit (S n) d j) (digit (S n) d k)); [congruence|reflexivity].
  Qed.
  Lemma tensor_product (p : nat -> R -> R) u : (forall d, (d < D)%nat -> deg n (p d)) ->
    sumf (el_dofs el) (fun k => el_shape el k u * prodf D (fun d => p d (el_node el k d))) = prodf D (fun d => p d (u d)).
  Proof.
    intros H. unfold el. cbn [tensor_element el_dofs el_node el_shape].
    rewrite (sumf_ext _ _ (fun k => prodf D (fun d => (fun i => p d (x i) * lagrange x n i (u d)) (digit (S n) d k)))).
    - rewrite (tensor_sum (S n) D (fun d i => p d (x i) * lagrange x n i (u d))) by lia. apply prodf_ext. intros d Hd. apply (interpolation x n Hx). apply H. exact Hd.
    - intros k _. rewrite <- prodf_mult. apply prodf_ext. intros d _. ring.
  Qed.
  Lemma tensor_reproduces F u : polynomial n D F -> sumf (el_dofs el) (fun k => el_shape el k u * F (el_node el k)) = F u.
  Proof.
    intros (K & c & al & Hal & E). rewrite E.
    rewrite (sumf_ext _ _ (fun k => sumf K (fun m => c m * (el_shape el k u * prodf D (fun d => el_node el k d ^ al m d))))).
    - rewrite sumf_swap. apply sumf_ext. intros m Hm. rewrite sumf_scal. f_equal.
      apply (tensor_product (fun d t => t ^ al m d)). intros d Hd. apply deg_pow. apply Hal; assumption.
    - intros k _. rewrite E. rewrite <- sumf_scal. apply sumf_ext. intros m _. ring.
  Qed.
  Lemma tensor_unity u : sumf (el_dofs el) (fun k => el_shape el k u) = 1.
  Proof.
    rewrite (sumf_ext _ _ (fun k => el_shape el k u * prodf D (fun d => 1))).
    - rewrite (tensor_product (fun _ _ => 1)) by (intros; apply deg_const). apply prodf_one. reflexivity.
    - intros k _. rewrite prodf_one by reflexivity. ring.
  Qed.
End Tensor.
