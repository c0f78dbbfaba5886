(** Filters of any order: the quadrature resolves the modes. *)
From Verif Require Import Prelude BigSum ModelSemiLagrangian ModelElements SpecElements ModelFilter SpecFilter SpecFilterOrders ModelBoxes SpecBoxes ProofSemiLagrangian ProofElements ProofBoxes ProofLobatto ProofFilter ProofFilter2.
Local Open Scope R_scope.

Lemma no_power k : forall b, deg k (fun t => b * t ^ S k) -> b = 0.
Proof.
  induction k as [|k IH]; intros b H.
  - destruct H as [c Hc]. assert (A := Hc 0). assert (B := Hc 1). cbn in A, B. lra.
  - destruct H as (c & g & Hg & E). assert (C : c = 0) by (assert (A := E 0); rewrite pow_i in A by lia; lra). apply IH.
    apply deg_ext with (f := g); [exact Hg|]. intros t. enough (X : b * t ^ S k + - 1 * g t = 0) by lra. revert t.
    apply (deg_roots (S k) (fun t => b * t ^ S k + - 1 * g t) (fun i => INR i + 1)).
    + apply deg_plus; [apply deg_scal; apply deg_pow; lia|apply deg_scal; apply deg_S; exact Hg].
    + intros i j Hij X. assert (Y : INR i = INR j) by lra. apply INR_eq in Y. lia.
    + intros i _. set (t := INR i + 1). assert (P : 0 < t) by (unfold t; assert (Q := pos_INR i); lra). assert (A := E t). rewrite C in A.
      change (t ^ S (S k)) with (t * t ^ S k) in A. apply Rmult_eq_reg_l with t; [|lra]. lra.
Qed.
Section Line.
  Variables (p : nat) (x w : nat -> R) (leg : nat -> R -> R).
  Hypotheses (Hp : (1 <= p)%nat) (HR : line_rule p x w) (HL : orthogonal_basis p leg).

  Lemma leg_deg k : (k <= p)%nat -> deg k (leg k).
  Proof.
    intros Hk. destruct (ob_degree _ _ HL k Hk) as (a & c & _ & E). apply deg_ext with (f := fun t => a * t ^ k + sumf k (fun j => c j * t ^ j)); [|exact E].
    apply deg_plus; [apply deg_scal; apply deg_pow; lia|]. apply (deg_sum k k (fun j t => c j * t ^ j)). intros j Hj. apply deg_scal. apply deg_pow. lia.
  Qed.
  Lemma line_integrates f v : deg (2 * p - 1) f -> int f v -> sumf (S p) (fun s => w s * f (x s)) = v.
  Proof.
    intros Hf Hv. apply (int_unique f); [|exact Hv]. destruct (deg_coefficients _ _ Hf) as [c Hc].
    replace (sumf (S p) (fun s => w s * f (x s))) with (sumf (S (2 * p - 1)) (fun k => c k * (1 / INR (S k)))).
    - apply int_ext with (f := fun t => sumf (S (2 * p - 1)) (fun k => c k * t ^ k)); [|exact Hc].
      apply (int_sum _ (fun k t => c k * t ^ k)). intros k _. apply int_scal. apply int_pow.
    - transitivity (sumf (S (2 * p - 1)) (fun k => sumf (S p) (fun s => c k * (w s * x s ^ k)))).
      + apply sumf_ext. intros k Hk. rewrite sumf_scal. rewrite (lr_exact _ _ _ HR k) by lia. reflexivity.
      + rewrite sumf_swap. apply sumf_ext. intros s Hs. rewrite Hc. rewrite <- sumf_scal. apply sumf_ext. intros k _. ring.
  Qed.
  Definition norm2 (k : nat) : R := sumf (S p) (fun s => w s * (leg k (x s) * leg k (x s))).
  Lemma line_orthogonal j k : (j <= p)%nat -> (k <= p)%nat -> sumf (S p) (fun s => w s * (leg j (x s) * leg k (x s))) = delta j k * norm2 j.
  Proof.
    intros Hj Hk. unfold delta. destruct (Nat.eqb_spec j k) as [<-|N]; [unfold norm2; ring|].
    assert (G : forall a b, (a < b <= p)%nat -> sumf (S p) (fun s => w s * (leg a (x s) * leg b (x s))) = 0).
    { intros a b Hab. apply (line_integrates (fun t => leg a t * leg b t)).
      - apply deg_le with (n := (a + b)%nat); [lia|]. apply deg_mult; apply leg_deg; lia.
      - destruct (ob_orthogonal _ _ HL a b Hab) as (F & HF & E). exists F. split; [exact HF|lra]. }
    rewrite Rmult_0_l. destruct (Nat.lt_ge_cases j k) as [L|L]; [apply G; lia|].
    rewrite <- (G k j ltac:(lia)). apply sumf_ext. intros s _. ring.
  Qed.
  Lemma norm2_pos k : (k <= p)%nat -> 0 < norm2 k.
  Proof.
    intros Hk. assert (NN : 0 <= norm2 k).
    { unfold norm2. apply sumf_nonneg. intros s Hs. apply Rmult_le_pos; [apply Rlt_le; apply (lr_weights _ _ _ HR); lia|]. apply Rle_0_sqr. }
    destruct (Rle_lt_or_eq_dec _ _ NN) as [L|E]; [exact L|exfalso].
    assert (Z : forall s, (s <= p)%nat -> leg k (x s) = 0).
    { intros s Hs. assert (A : w s * (leg k (x s) * leg k (x s)) = 0).
      { apply (sumf_nonneg_zero (S p) (fun s => w s * (leg k (x s) * leg k (x s)))); [|symmetry; exact E|lia].
        intros i Hi. apply Rmult_le_pos; [apply Rlt_le; apply (lr_weights _ _ _ HR); lia|apply Rle_0_sqr]. }
      assert (P := lr_weights _ _ _ HR s Hs). apply Rmult_integral in A. destruct A as [A|A]; [lra|]. apply Rmult_integral in A. destruct A; assumption. }
    assert (D : deg p (leg k)) by (apply deg_le with (n := k); [exact Hk|apply leg_deg; exact Hk]).
    assert (V := deg_roots p (leg k) x D (lr_points _ _ _ HR) Z).
    destruct (ob_degree _ _ HL k Hk) as (a & c & Ha & Ec).
    (* a polynomial with leading coefficient a that vanishes everywhere *)
    destruct k as [|k]; [specialize (V 0); rewrite Ec in V; cbn in V; lra|].
    assert (Dk : deg k (fun t => - a * t ^ S k)).
    { apply deg_ext with (f := fun t => sumf (S k) (fun j => c j * t ^ j)).
      - apply (deg_sum k (S k) (fun j t => c j * t ^ j)). intros j Hj. apply deg_scal. apply deg_pow. lia.
      - intros t. assert (X := Ec t). rewrite V in X. lra. }
    assert (B := no_power k (- a) Dk). lra.
  Qed.
  Lemma span n : (n <= p)%nat -> forall f, deg n f -> exists c, forall t, f t = sumf (S n) (fun k => c k * leg k t).
  Proof.
    induction n as [|n IH]; intros Hn f Hf.
    - destruct Hf as [d Hd]. destruct (ob_degree _ _ HL 0%nat Hn) as (a & c & Ha & E). exists (fun _ => d / a). intros t. cbn [sumf]. rewrite Hd, E. cbn [sumf pow]. field. exact Ha.
    - destruct (deg_coefficients _ _ Hf) as [b Hb]. destruct (ob_degree _ _ HL (S n) Hn) as (a & c & Ha & E).
      destruct (IH ltac:(lia) (fun t => f t + - (b (S n) / a) * leg (S n) t)) as [e He].
      + apply deg_ext with (f := fun t => sumf (S n) (fun k => b k * t ^ k) + - (b (S n) / a) * sumf (S n) (fun j => c j * t ^ j)).
        * apply deg_plus; [|apply deg_scal]; [apply (deg_sum n (S n) (fun k t => b k * t ^ k))|apply (deg_sum n (S n) (fun k t => c k * t ^ k))]; intros k Hk; apply deg_scal; apply deg_pow; lia.
        * intros t. rewrite Hb, E. change (sumf (S (S n)) (fun k => b k * t ^ k)) with (sumf (S n) (fun k => b k * t ^ k) + b (S n) * t ^ S n). field. exact Ha.
      + exists (fun k => if Nat.eqb k (S n) then b (S n) / a else e k). intros t.
        change (sumf (S (S n)) (fun k => (if Nat.eqb k (S n) then b (S n) / a else e k) * leg k t)) with
          (sumf (S n) (fun k => (if Nat.eqb k (S n) then b (S n) / a else e k) * leg k t) + (if Nat.eqb (S n) (S n) then b (S n) / a else e (S n)) * leg (S n) t).
        rewrite Nat.eqb_refl. rewrite (sumf_ext _ _ (fun k => e k * leg k t)) by (intros k Hk; destruct (Nat.eqb_spec k (S n)); [lia|reflexivity]).
        rewrite <- He. ring.
  Qed.
  Lemma line_complete i j : (i <= p)%nat -> (j <= p)%nat -> sumf (S p) (fun k => leg k (x i) * leg k (x j) * w j / norm2 k) = delta i j.
  Proof.
    intros Hi Hj. destruct (span p (le_n p) (lagrange x p j) (deg_lagrange x p j Hj)) as [c Hc].
    assert (Dis : distinct p x) by exact (lr_points _ _ _ HR).
    assert (C : forall k, (k <= p)%nat -> c k = leg k (x j) * w j / norm2 k).
    { intros k Hk. assert (P := norm2_pos k Hk).
      assert (A : sumf (S p) (fun s => w s * (lagrange x p j (x s) * leg k (x s))) = w j * leg k (x j)).
      { rewrite (sumf_ext _ _ (fun s => delta j s * (w s * leg k (x s)))); [apply (sumf_delta (S p) j (fun s => w s * leg k (x s))); lia|].
        intros s Hs. rewrite (lagrange_delta x p Dis) by lia. ring. }
      assert (B : sumf (S p) (fun s => w s * (lagrange x p j (x s) * leg k (x s))) = c k * norm2 k).
      { rewrite (sumf_ext _ _ (fun s => sumf (S p) (fun l => c l * (w s * (leg l (x s) * leg k (x s)))))).
        - rewrite sumf_swap. rewrite (sumf_ext _ _ (fun l => delta k l * (c l * norm2 l))); [apply (sumf_delta (S p) k (fun l => c l * norm2 l)); lia|].
          intros l Hl. rewrite sumf_scal, line_orthogonal by lia. unfold delta. rewrite (Nat.eqb_sym l k). ring.
        - intros s _. rewrite Hc. rewrite <- sumf_scal_r, <- sumf_scal. apply sumf_ext. intros l _. ring. }
      apply Rmult_eq_reg_r with (norm2 k); [|lra]. rewrite <- B, A. field. lra. }
    rewrite <- (lagrange_delta x p Dis i j Hi Hj).
    transitivity (lagrange x p j (x i)).
    - rewrite Hc. apply sumf_ext. intros k Hk. rewrite C by lia. field. assert (P := norm2_pos k ltac:(lia)). lra.
    - rewrite !(lagrange_delta x p Dis) by lia. unfold delta. rewrite Nat.eqb_sym. reflexivity.
  Qed.
End Line.

Lemma prod_rev dim f : dim123 dim -> prodf dim f = prodf dim (fun d => f (dim - 1 - d)%nat).
Proof. intros [->|[->| ->]]; cbn [prodf Nat.sub]; ring. Qed.
Lemma psi_digits leg dim p k u : dim123 dim -> (k < Nat.pow (p + 1) dim)%nat ->
  basis leg dim p k u = prodf dim (fun d => leg (digit (p + 1) (dim - 1 - d) k) (u d)).
Proof.
  intros Hd Hk. assert (P : (0 < p + 1)%nat) by lia. unfold basis, digit. destruct Hd as [->|[->| ->]].
  - rewrite degrees_1. cbn [mode prodf Nat.sub Nat.pow]. rewrite Nat.div_1_r, Nat.mod_small; [ring|]. cbn in Hk. lia.
  - rewrite degrees_2. cbn [mode prodf Nat.sub Nat.pow]. rewrite Nat.div_1_r, Nat.mul_1_r. rewrite (Nat.mod_small (k / (p + 1))); [ring|].
    apply Nat.div_lt_upper_bound; [lia|]. rewrite pow2 in Hk. lia.
  - rewrite degrees_3. cbn [mode prodf Nat.sub Nat.pow]. rewrite Nat.div_1_r, !Nat.mul_1_r. rewrite (Nat.mod_small (k / ((p + 1) * (p + 1)))).
    + rewrite Nat.mod_mul_r by lia. rewrite (Nat.mul_comm (p + 1) ((k / (p + 1)) mod (p + 1))), Nat.div_add by lia.
      rewrite (Nat.div_small (k mod (p + 1))) by (apply Nat.mod_upper_bound; lia). cbn [plus]. ring.
    + apply Nat.div_lt_upper_bound; [nia|]. assert (X : Nat.pow (p + 1) 3 = ((p + 1) * (p + 1) * (p + 1))%nat) by (cbn [Nat.pow]; lia). lia.
Qed.
Lemma digit_le p d k : (digit (p + 1) d k <= p)%nat.
Proof. assert (A := digit_lt (p + 1) d k ltac:(lia)). lia. Qed.

Section TensorRule.
  Variables (dim p : nat) (x w : nat -> R) (leg : nat -> R -> R).
  Hypotheses (Hdim : dim123 dim) (Hp : (1 <= p)%nat) (HR : line_rule p x w) (HL : orthogonal_basis p leg).
  Let m := (p + 1)%nat.
  Let n := Nat.pow m dim.
  Let q := tensor_rule dim p x w.
  Let psi := basis leg dim p.
  Definition gamma (k : nat) : R := prodf dim (fun d => norm2 p x w leg (digit (p + 1) d k)).
  Lemma gamma_pos k : 0 < gamma k.
  Proof.
    unfold gamma. assert (A : forall D, 0 < prodf D (fun d => norm2 p x w leg (digit (p + 1) d k))); [|apply A].
    induction D as [|D IH]; cbn [prodf]; [lra|]. apply Rmult_lt_0_compat; [exact IH|]. apply (norm2_pos p x w leg Hp HR HL). apply digit_le.
  Qed.
  Lemma psi_orthogonal k l : (k < n)%nat -> (l < n)%nat -> integral q (fun u => psi k u * psi l u) = delta k l * gamma k.
  Proof.
    intros Hk Hl. unfold integral, q, tensor_rule. cbn [qn qpoint qweight].
    rewrite (sumf_ext _ _ (fun s => prodf dim (fun d => (fun d a => w a * (leg (digit m (dim - 1 - d) k) (x a) * leg (digit m (dim - 1 - d) l) (x a))) d (digit m d s)))).
    - fold m. rewrite (tensor_sum m dim (fun d a => w a * (leg (digit m (dim - 1 - d) k) (x a) * leg (digit m (dim - 1 - d) l) (x a)))) by (unfold m; lia).
      rewrite (prodf_ext dim _ (fun d => delta (digit m (dim - 1 - d) k) (digit m (dim - 1 - d) l) * norm2 p x w leg (digit m (dim - 1 - d) k))).
      + rewrite prodf_mult. rewrite <- (prod_rev dim (fun d => delta (digit m d k) (digit m d l)) Hdim), <- (prod_rev dim (fun d => norm2 p x w leg (digit m d k)) Hdim). fold (gamma k). f_equal.
        unfold delta at 2. destruct (Nat.eqb_spec k l) as [->|N].
        * apply prodf_one. intros d _. unfold delta. rewrite Nat.eqb_refl. reflexivity.
        * destruct (digits_differ m dim k l ltac:(unfold m; lia) Hk Hl N) as (d & Ld & Nd). apply (prodf_zero dim _ d Ld). unfold delta. destruct (Nat.eqb_spec (digit m d k) (digit m d l)); [congruence|reflexivity].
      + intros d _. unfold m at 1. rewrite Nat.add_1_r. apply (line_orthogonal p x w leg Hp HR HL); apply digit_le.
    - intros s _. unfold psi. rewrite !psi_digits by assumption. rewrite <- !prodf_mult. reflexivity.
  Qed.
  Definition A (k s : nat) : R := qweight q s * psi k (qpoint q s).
  Definition A' (s k : nat) : R := psi k (qpoint q s) / gamma k.
  Lemma psi_complete i j : (i < n)%nat -> (j < n)%nat -> sumf n (fun k => A' i k * A k j) = delta i j.
  Proof.
    intros Hi Hj. unfold A, A'.
    rewrite (sumf_ext _ _ (fun k => prodf dim (fun d => (fun d a => leg a (x (digit m (dim - 1 - d) i)) * leg a (x (digit m (dim - 1 - d) j)) * w (digit m (dim - 1 - d) j) / norm2 p x w leg a) d (digit m d k)))).
    - unfold n. rewrite (tensor_sum m dim (fun d a => leg a (x (digit m (dim - 1 - d) i)) * leg a (x (digit m (dim - 1 - d) j)) * w (digit m (dim - 1 - d) j) / norm2 p x w leg a)) by (unfold m; lia).
      rewrite (prodf_ext dim _ (fun d => delta (digit m (dim - 1 - d) i) (digit m (dim - 1 - d) j))).
      + rewrite <- (prod_rev dim (fun d => delta (digit m d i) (digit m d j)) Hdim). unfold delta at 2. destruct (Nat.eqb_spec i j) as [->|N].
        * apply prodf_one. intros d _. unfold delta. rewrite Nat.eqb_refl. reflexivity.
        * destruct (digits_differ m dim i j ltac:(unfold m; lia) Hi Hj N) as (d & Ld & Nd). apply (prodf_zero dim _ d Ld). unfold delta. destruct (Nat.eqb_spec (digit m d i) (digit m d j)); [congruence|reflexivity].
      + intros d _. unfold m at 1. rewrite Nat.add_1_r. apply (line_complete p x w leg Hp HR HL); apply digit_le.
    - intros k Hk. unfold psi, q, tensor_rule. cbn [qpoint qweight]. rewrite !psi_digits by assumption.
      rewrite (prod_rev dim (fun d => leg (digit (p + 1) (dim - 1 - d) k) (x (digit (p + 1) d i))) Hdim), (prod_rev dim (fun d => leg (digit (p + 1) (dim - 1 - d) k) (x (digit (p + 1) d j))) Hdim), (prod_rev dim (fun d => w (digit (p + 1) d j)) Hdim).
      assert (G := gamma_pos k). unfold gamma in G |- *. fold m in G |- *.
      rewrite (prodf_ext dim (fun d => leg (digit m (dim - 1 - (dim - 1 - d)) k) (x (digit m (dim - 1 - d) i))) (fun d => leg (digit m d k) (x (digit m (dim - 1 - d) i)))) by (intros d Hd; replace (dim - 1 - (dim - 1 - d))%nat with d by lia; reflexivity).
      rewrite (prodf_ext dim (fun d => leg (digit m (dim - 1 - (dim - 1 - d)) k) (x (digit m (dim - 1 - d) j))) (fun d => leg (digit m d k) (x (digit m (dim - 1 - d) j)))) by (intros d Hd; replace (dim - 1 - (dim - 1 - d))%nat with d by lia; reflexivity).
      apply Rmult_eq_reg_r with (prodf dim (fun d => norm2 p x w leg (digit m d k))); [|lra].
      rewrite <- (prodf_mult dim (fun d => leg (digit m d k) (x (digit m (dim - 1 - d) i)) * leg (digit m d k) (x (digit m (dim - 1 - d) j)) * w (digit m (dim - 1 - d) j) / norm2 p x w leg (digit m d k))).
      rewrite (prodf_ext dim (fun d => leg (digit m d k) (x (digit m (dim - 1 - d) i)) * leg (digit m d k) (x (digit m (dim - 1 - d) j)) * w (digit m (dim - 1 - d) j) / norm2 p x w leg (digit m d k) * norm2 p x w leg (digit m d k))
        (fun d => leg (digit m d k) (x (digit m (dim - 1 - d) i)) * (leg (digit m d k) (x (digit m (dim - 1 - d) j)) * w (digit m (dim - 1 - d) j)))).
      + rewrite !prodf_mult. field. lra.
      + intros d _. assert (P := norm2_pos p x w leg Hp HR HL (digit m d k) (digit_le p d k)). field. lra.
  Qed.
  Lemma A_inverse : inverse_of n A A'.
  Proof.
    intros i j Hi Hj. split; [|apply psi_complete; assumption].
    assert (O := psi_orthogonal i j Hi Hj). assert (G := gamma_pos j). unfold A, A'.
    transitivity (integral q (fun u => psi i u * psi j u) / gamma j).
    - unfold integral, Rdiv. rewrite <- sumf_scal_r. apply sumf_ext. intros s _. ring.
    - rewrite O. unfold delta. destruct (Nat.eqb_spec i j) as [->|N]; field; lra.
  Qed.
  Lemma legendre_regular : regular n (gram q psi psi).
  Proof.
    exists (fun i j => delta i j / gamma j). intros i j Hi Hj.
    assert (E : forall k l, (k < n)%nat -> (l < n)%nat -> gram q psi psi k l = delta k l * gamma k).
    { intros k l Hk Hl. rewrite <- psi_orthogonal by assumption. apply sumf_ext. intros s _. ring. }
    assert (G := gamma_pos j). assert (Gi := gamma_pos i). split.
    - rewrite (sumf_ext _ _ (fun k => delta i k * (gamma i * delta k j / gamma j))).
      + rewrite (sumf_delta n i (fun k => gamma i * delta k j / gamma j)) by assumption. unfold delta. destruct (Nat.eqb_spec i j) as [->|N]; field; lra.
      + intros k Hk. rewrite E by assumption. field. lra.
    - rewrite (sumf_ext _ _ (fun k => delta i k * (delta k j))).
      + apply (sumf_delta n i (fun k => delta k j)). assumption.
      + intros k Hk. rewrite E by assumption. assert (Gk := gamma_pos k). field. lra.
  Qed.
End TensorRule.

(** Changing the support points. *)
Lemma line_change p x y i j : distinct p x -> distinct p y -> (i <= p)%nat -> (j <= p)%nat ->
  sumf (S p) (fun s => lagrange y p i (x s) * lagrange x p s (y j)) = delta i j.
Proof.
  intros Hx Hy Hi Hj. rewrite (interpolation x p Hx (lagrange y p i) (deg_lagrange y p i Hi)). apply (lagrange_delta y p Hy); assumption.
Qed.
Lemma tensor_change dim p x y i j : distinct p x -> distinct p y -> (i < S p ^ dim)%nat -> (j < S p ^ dim)%nat ->
  sumf (S p ^ dim) (fun s => el_shape (tensor_element y p dim) i (el_node (tensor_element x p dim) s) * el_shape (tensor_element x p dim) s (el_node (tensor_element y p dim) j)) = delta i j.
Proof.
  intros Hx Hy Hi Hj. cbn [tensor_element el_shape el_node].
  rewrite (sumf_ext _ _ (fun s => prodf dim (fun d => (fun d a => lagrange y p (digit (S p) d i) (x a) * lagrange x p a (y (digit (S p) d j))) d (digit (S p) d s)))) by (intros s _; rewrite <- prodf_mult; reflexivity).
  rewrite (tensor_sum (S p) dim (fun d a => lagrange y p (digit (S p) d i) (x a) * lagrange x p a (y (digit (S p) d j)))) by lia.
  rewrite (prodf_ext dim _ (fun d => delta (digit (S p) d i) (digit (S p) d j))).
  - unfold delta at 2. destruct (Nat.eqb_spec i j) as [->|N].
    + apply prodf_one. intros d _. unfold delta. rewrite Nat.eqb_refl. reflexivity.
    + destruct (digits_differ (S p) dim i j ltac:(lia) Hi Hj N) as (d & Ld & Nd). apply (prodf_zero dim _ d Ld). unfold delta. destruct (Nat.eqb_spec (digit (S p) d i) (digit (S p) d j)); [congruence|reflexivity].
  - intros d _. assert (D1 := digit_lt (S p) d i ltac:(lia)). assert (D2 := digit_lt (S p) d j ltac:(lia)). apply line_change; [exact Hx|exact Hy|lia|lia].
Qed.
