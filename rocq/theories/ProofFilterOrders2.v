(** Filters of any order: resolution, means and square integrals; existence of the Legendre polynomials. *)
From Verif Require Import Prelude BigSum ModelSemiLagrangian ModelElements SpecElements ModelFilter SpecFilter SpecFilterOrders ModelBoxes SpecBoxes ProofSemiLagrangian ProofElements ProofBoxes ProofLobatto ProofFilter ProofFilter2 ProofFilterOrders.
Local Open Scope R_scope.

Section Orders.
  Variables (dim p : nat) (x w y : nat -> R) (leg : nat -> R -> R).
  Hypotheses (Hdim : dim123 dim) (Hp : (1 <= p)%nat) (HR : line_rule p x w) (HL : orthogonal_basis p leg) (Hy : distinct p y).
  Let q := tensor_rule dim p x w.
  Let shape := el_shape (tensor_element y p dim).
  Let psi := basis leg dim p.
  Let n := Nat.pow (p + 1) dim.
  Lemma n_S : n = (S p ^ dim)%nat. Proof. unfold n. rewrite Nat.add_1_r. reflexivity. Qed.
  Lemma qpoint_node s : qpoint q s = el_node (tensor_element x p dim) s.
  Proof. unfold q, tensor_rule. cbn [qpoint tensor_element el_node]. rewrite Nat.add_1_r. reflexivity. Qed.
  Definition B (s i : nat) : R := shape i (qpoint q s).
  Definition B' (i s : nat) : R := el_shape (tensor_element x p dim) s (el_node (tensor_element y p dim) i).
  Lemma B_inverse : inverse_of n B B'.
  Proof.
    assert (Hx : distinct p x) by exact (lr_points _ _ _ HR). intros i j Hi Hj. rewrite n_S in *. split.
    - transitivity (delta j i); [|unfold delta; rewrite Nat.eqb_sym; reflexivity]. rewrite <- (tensor_change dim p y x j i Hy Hx Hj Hi). apply sumf_ext. intros k _. unfold B, B', shape. rewrite qpoint_node. ring.
    - transitivity (delta j i); [|unfold delta; rewrite Nat.eqb_sym; reflexivity]. rewrite <- (tensor_change dim p x y j i Hx Hy Hj Hi). apply sumf_ext. intros k _. unfold B, B', shape. rewrite qpoint_node. ring.
  Qed.
  Lemma every_order : resolved dim p q leg shape.
  Proof.
    split; [exact (legendre_regular dim p x w leg Hdim Hp HR HL)|].
    exists (mmult n B' (A' dim p x w leg)).
    assert (I := inverse_product n _ _ _ _ (A_inverse dim p x w leg Hdim Hp HR HL) B_inverse).
    assert (E : forall k i, gram q psi shape k i = mmult n (A dim p x w leg) B k i).
    { intros k i. unfold gram, integral, mmult, A, B. apply sumf_ext. intros s _. fold q psi. ring. }
    intros i j Hi Hj. destruct (I i j Hi Hj) as [I1 I2]. split; [rewrite <- I1|rewrite <- I2]; apply sumf_ext; intros k _; fold psi; rewrite E; reflexivity.
  Qed.
  Lemma first_constant : exists c, c <> 0 /\ forall t, leg 0%nat t = c.
  Proof. destruct (ob_degree _ _ HL 0%nat ltac:(lia)) as (a & c & Ha & E). exists a. split; [exact Ha|]. intros t. rewrite E. cbn. ring. Qed.
  Lemma every_mean : mean_mode dim p q leg.
  Proof.
    destruct first_constant as (c & Hc & E). exists c. split; [exact Hc|]. split; [exact E|]. intros i Hi.
    assert (N : (0 < n)%nat) by lia.
    assert (O := psi_orthogonal dim p x w leg Hdim Hp HR HL i 0%nat ltac:(lia) N). fold q psi in O.
    assert (P : exists d, d <> 0 /\ forall u, psi 0%nat u = d).
    { unfold psi, basis. destruct Hdim as [->|[->| ->]]; [rewrite degrees_1|rewrite degrees_2|rewrite degrees_3]; repeat rewrite ?Nat.div_0_l, ?Nat.mod_0_l by lia; cbn [mode].
      - exists (c * 1). split; [lra|]. intros; rewrite !E; reflexivity.
      - exists (c * (c * 1)). split; [|intros; rewrite !E; reflexivity]. repeat apply Rmult_integral_contrapositive_currified; lra.
      - exists (c * (c * (c * 1))). split; [|intros; rewrite !E; reflexivity]. repeat apply Rmult_integral_contrapositive_currified; lra. }
    destruct P as (d & Hd & P). unfold delta in O. destruct (Nat.eqb_spec i 0); [lia|]. rewrite Rmult_0_l in O.
    assert (X : integral q (psi i) * d = 0). { rewrite <- O. unfold integral. rewrite <- sumf_scal_r. apply sumf_ext. intros s _. rewrite P. ring. }
    apply Rmult_integral in X. destruct X as [X|X]; [exact X|contradiction].
  Qed.
  (** Parseval. *)
  Lemma parseval f g : coefficients n q shape psi f g -> square_integral q (expansion n shape f) = sumf n (fun k => gamma dim p x w leg k * (g k * g k)).
  Proof.
    intros C.
    assert (At : forall s, (s < n)%nat -> expansion n shape f (qpoint q s) = expansion n psi g (qpoint q s)).
    { intros s Hs. set (z := fun s => expansion n shape f (qpoint q s) - expansion n psi g (qpoint q s)).
      assert (Z : forall k, (k < n)%nat -> mvmult n (A dim p x w leg) z k = 0).
      { intros k Hk. specialize (C k Hk). unfold mvmult, A, z. unfold integral in C. change (qn q) with n in C.
        replace 0 with (sumf n (fun k0 => qweight q k0 * (expansion n shape f (qpoint q k0) * psi k (qpoint q k0))) - sumf n (fun k0 => qweight q k0 * (expansion n psi g (qpoint q k0) * psi k (qpoint q k0)))) by (rewrite C; ring).
        rewrite <- sumf_minus. apply sumf_ext. intros j _. fold q psi. ring. }
      assert (I := mv_inverse n _ _ z s (inverse_sym n _ _ (A_inverse dim p x w leg Hdim Hp HR HL)) Hs).
      rewrite (mv_ext n _ _ (fun _ => 0) Z) in I. unfold mvmult in I. rewrite (sumf_zero n) in I by (intros; ring). unfold z in I. lra. }
    unfold square_integral, integral. change (qn q) with n.
    rewrite (sumf_ext n _ (fun s => sumf n (fun k => sumf n (fun l => g k * g l * (qweight q s * (psi k (qpoint q s) * psi l (qpoint q s))))))).
    - rewrite sumf_swap. apply sumf_ext. intros k Hk. rewrite sumf_swap.
      rewrite (sumf_ext n _ (fun l => delta k l * (g k * g l * gamma dim p x w leg k))).
      + rewrite (sumf_delta n k (fun l => g k * g l * gamma dim p x w leg k)) by exact Hk. ring.
      + intros l Hl. rewrite sumf_scal. assert (O := psi_orthogonal dim p x w leg Hdim Hp HR HL k l Hk Hl). unfold integral in O. fold q psi in O. change (qn q) with n in O. rewrite O. ring.
    - intros s Hs. rewrite At by exact Hs. unfold expansion. rewrite <- sumf_scal_r, <- sumf_scal. apply sumf_ext. intros k _. rewrite <- sumf_scal, <- sumf_scal. apply sumf_ext. intros l _. ring.
  Qed.
  Section Mesh.
    Variables (inv : nat -> matrix -> matrix) (alpha s : R) (Nc : nat) (by_sum : bool) (cells : list (list nat)) (z : nat -> R) (c : list nat).
    Hypotheses (Hinv : inverts inv) (Hnd : NoDup (concat cells)) (Hin : In c cells) (Hlen : length c = n).
    Lemma filter_square : 0 <= alpha ->
      square_integral q (expansion n shape (fun k => applyFilter (exp_cell leg shape (qn q) (qpoint q) (qweight q) inv alpha s Nc by_sum dim p) cells z (nth k c 0%nat)))
      <= square_integral q (expansion n shape (fun k => z (nth k c 0%nat))).
    Proof.
      intros Ha. set (f := fun k => z (nth k c 0%nat)).
      assert (C : coefficients n q shape psi f (mvmult n (to_legendre leg shape (qn q) (qpoint q) (qweight q) inv dim p) f)) by (apply (coefficients_iff leg shape q inv dim p Hdim Hinv every_order); reflexivity).
      assert (D := mesh_modes leg shape q inv dim p alpha s Nc by_sum Hdim Hinv every_order cells z c Hnd Hin Hlen _ C). fold n psi in D.
      rewrite (parseval _ _ C), (parseval _ _ D). apply sumf_le. intros k Hk. assert (G := gamma_pos dim p x w leg Hp HR HL k).
      apply Rmult_le_compat_l; [lra|]. set (g := mvmult n (to_legendre leg shape (qn q) (qpoint q) (qweight q) inv dim p) f k).
      destruct (damping_range alpha s Nc (highest by_sum dim p) (code_degree by_sum dim p k) Ha) as [L U]. set (d := damping alpha s Nc (highest by_sum dim p) (code_degree by_sum dim p k)) in *.
      replace (d * g * (d * g)) with (d * d * (g * g)) by ring. rewrite <- (Rmult_1_l (g * g)) at 2. apply Rmult_le_compat_r; [apply Rle_0_sqr|]. nra.
    Qed.
  End Mesh.
End Orders.

(** ** The polynomials exist *)
Lemma legendre_polynomial k : exists L, deg k L /\ (exists t, L t <> 0) /\ forall d r, (d < k)%nat -> deg d r -> int (fun t => L t * r t) 0.
Proof.
  destruct k as [|k].
  { exists (fun _ => 1). split; [apply deg_const|]. split; [exists 0; lra|]. intros; lia. }
  set (n := S k). set (g := fun t : R => (t - 0) ^ n * (t - 1) ^ n).
  assert (Dg : deg (2 * n) g) by (replace (2 * n)%nat with (n + n)%nat by lia; apply (deg_mult n n); apply deg_shift).
  destruct (chain (2 * n) g Dg n) as (G & E & D & Hd).
  assert (V : forall a, (a = 0 \/ a = 1) -> forall j, (j <= n)%nat -> vanish (n - j) a (G j)).
  { intros a Ha. induction j as [|j IH]; intros Hj.
    - rewrite Nat.sub_0_r. destruct Ha as [->| ->].
      + exists n, (fun t => (t - 1) ^ n). split; [apply deg_shift|]. intros t. rewrite E. reflexivity.
      + exists n, (fun t => (t - 0) ^ n). split; [apply deg_shift|]. intros t. rewrite E. unfold g. ring.
    - apply (vanish_deriv (n - S j) a (G j)); [|apply D; lia]. replace (S (n - S j)) with (n - j)%nat by lia. apply IH. lia. }
  assert (Z : forall a, (a = 0 \/ a = 1) -> forall j, (j < n)%nat -> G j a = 0).
  { intros a Ha j Hj. apply (vanish_zero (n - j - 1)). replace (S (n - j - 1)) with (n - j)%nat by lia. apply V; [exact Ha|lia]. }
  exists (G n). split; [replace n with (2 * n - n)%nat at 1 by lia; apply Hd; lia|]. split.
  - assert (Q : forall j, (j <= n)%nat -> exists t, G j t <> 0).
    { induction j as [|j IH]; intros Hj.
      - exists 2. rewrite E. unfold g. apply Rmult_integral_contrapositive. split; apply pow_nonzero; lra.
      - destruct (IH ltac:(lia)) as [t Ht]. assert (Dj := D j ltac:(lia)). assert (Ej := Z 0 (or_introl eq_refl) j ltac:(lia)).
        destruct (Rtotal_order 0 t) as [L|[<-|L]].
        + destruct (MVT_cor2 (G j) (G (S j)) 0 t L) as (c & Ec & _); [intros; apply Dj|]. exists c. intros X. rewrite X in Ec. lra.
        + congruence.
        + destruct (MVT_cor2 (G j) (G (S j)) t 0 L) as (c & Ec & _); [intros; apply Dj|]. exists c. intros X. rewrite X in Ec. lra. }
    apply Q. lia.
  - assert (Q : forall j, (j <= n)%nat -> forall d r, (d < j)%nat -> deg d r -> int (fun t => G j t * r t) 0).
    { induction j as [|j IH]; intros Hj d r Hdj Hr; [lia|]. destruct (deg_deriv d r Hr) as (r' & Hr' & Dr).
      replace 0 with (- 0) by ring. apply (int_parts (G j) (G (S j)) r r' 0 (D j ltac:(lia)) Dr); [apply Z; [tauto|lia]|apply Z; [tauto|lia]|].
      destruct d as [|d].
      - apply int_ext with (f := fun _ => 0); [apply int_0|]. intros t. destruct Hr as [c Hc].
        assert (X : r' t = 0) by (apply (lim_unique r t); [apply Dr|apply lim_ext with (f := fun _ => c); [exact Hc|apply derivable_pt_lim_const]]). rewrite X. ring.
      - cbn [pred] in Hr'. apply (IH ltac:(lia) d); [lia|exact Hr']. }
    apply Q. lia.
Qed.
Lemma square_zero n f : deg n f -> int (fun t => f t * f t) 0 -> forall t, f t = 0.
Proof.
  intros Hf I t0. destruct (Req_dec (f t0) 0) as [E|E]; [exact E|exfalso].
  assert (P := int_positive (n + n) (fun t => f t * f t) 0 t0 (deg_mult n n f f Hf Hf) (fun t _ => Rle_0_sqr (f t))). apply (Rlt_irrefl 0). apply P; [|exact I].
  apply Rmult_integral_contrapositive. split; exact E.
Qed.
Theorem legendre_exist p : exists leg, orthogonal_basis p leg.
Proof.
  destruct (finite_choice (fun _ => 0) (S p) (fun k L => deg k L /\ (exists t, L t <> 0) /\ forall d r, (d < k)%nat -> deg d r -> int (fun t => L t * r t) 0)) as [leg H].
  { intros k _. apply legendre_polynomial. }
  exists leg. constructor.
  - intros k Hk. destruct (H k ltac:(lia)) as (Dk & [t0 Ht] & O). destruct (deg_coefficients _ _ Dk) as [c Hc]. exists (c k), c. split; [|intros t; rewrite Hc; cbn [sumf]; ring].
    intros Z. apply Ht. destruct k as [|k].
    + rewrite Hc. cbn [sumf pow]. rewrite Z. ring.
    + apply (square_zero (S k) (leg (S k)) Dk). apply (O k); [lia|].
      apply deg_ext with (f := fun t => sumf (S k) (fun j => c j * t ^ j)).
      * apply (deg_sum k (S k) (fun j t => c j * t ^ j)). intros j Hj. apply deg_scal. apply deg_pow. lia.
      * intros t. rewrite Hc. change (sumf (S (S k)) (fun j => c j * t ^ j)) with (sumf (S k) (fun j => c j * t ^ j) + c (S k) * t ^ S k). rewrite Z. ring.
  - intros j k Hjk. destruct (H k ltac:(lia)) as (_ & _ & O). destruct (H j ltac:(lia)) as (Dj & _ & _).
    destruct (O j (leg j) ltac:(lia) Dj) as (F & HF & E). exists F. split; [|lra]. intros t. rewrite Rmult_comm. apply HF.
Qed.
Lemma lobatto_line p x w : gauss_lobatto p x w -> line_rule p x w.
Proof. intros [_ _ I W E]. constructor; [intros i j H X; specialize (I i j H); lra|exact W|exact E]. Qed.
