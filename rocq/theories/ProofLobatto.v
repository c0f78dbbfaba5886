(** Gauss-Lobatto rules exist for every number of points: the points are the zeros of the (n-1)-th derivative of t^n (t - 1)^n. *)
From Verif Require Import Prelude BigSum ModelSemiLagrangian ModelElements SpecElements ModelBoxes SpecBoxes ProofSemiLagrangian ProofElements ProofBoxes ProofElementsEx ProofBoxesEx.
Local Open Scope R_scope.

Lemma finite_choice {A} (d : A) n (P : nat -> A -> Prop) : (forall i, (i < n)%nat -> exists y, P i y) -> exists f : nat -> A, forall i, (i < n)%nat -> P i (f i).
Proof.
  induction n as [|n IH]; intros H; [exists (fun _ => d); intros; lia|].
  destruct IH as [f Hf]; [intros; apply H; lia|]. destruct (H n ltac:(lia)) as [y Hy].
  exists (fun i => if Nat.eqb i n then y else f i). intros i Hi. destruct (Nat.eqb_spec i n) as [->|N]; [exact Hy|apply Hf; lia].
Qed.

Definition derivative (f f' : R -> R) : Prop := forall t, derivable_pt_lim f t (f' t).
Lemma deg_deriv n : forall f, deg n f -> exists f', deg (pred n) f' /\ derivative f f'.
Proof.
  induction n as [|n IH]; intros f H.
  - destruct H as [c Hc]. exists (fun _ => 0). split; [exists 0; reflexivity|]. intros t. apply lim_ext with (f := fun _ => c); [exact Hc|apply derivable_pt_lim_const].
  - destruct H as (c & g & Hg & E). destruct (IH g Hg) as (g' & Hg' & D). exists (fun t => g t + t * g' t). split.
    + cbn [pred]. apply deg_plus; [exact Hg|]. destruct n as [|n].
      * destruct Hg as [d Hd]. apply deg_ext with (f := fun _ => 0); [apply deg_const|]. intros t.
        assert (X : g' t = 0) by (apply (lim_unique g t); [apply D|apply lim_ext with (f := fun _ => d); [exact Hd|apply derivable_pt_lim_const]]). rewrite X. ring.
      * cbn [pred] in Hg'. apply (deg_t n). exact Hg'.
    + intros t. apply lim_ext with (f := fun s => c + s * g s); [exact E|].
      replace (g t + t * g' t) with (0 + (1 * g t + t * g' t)) by ring.
      apply (derivable_pt_lim_plus (fun _ => c) (fun s => s * g s)); [apply derivable_pt_lim_const|].
      apply (derivable_pt_lim_mult (fun s => s) g); [apply derivable_pt_lim_id|apply D].
Qed.

(** ** Integrals over the unit interval *)
Definition int (f : R -> R) (v : R) : Prop := exists F, derivative F f /\ v = F 1 - F 0.
Lemma int_unique f v v' : int f v -> int f v' -> v = v'.
Proof.
  intros (F & HF & ->) (G & HG & ->).
  destruct (MVT_cor2 (fun t => F t - G t) (fun t => f t - f t) 0 1 Rlt_0_1) as (c & E & _).
  - intros c _. apply (derivable_pt_lim_minus F G); [apply HF|apply HG].
  - lra.
Qed.
Lemma int_ext f g v : int f v -> (forall t, g t = f t) -> int g v.
Proof. intros (F & HF & ->) E. exists F. split; [|reflexivity]. intros t. rewrite E. apply HF. Qed.
Lemma int_plus f g v v' : int f v -> int g v' -> int (fun t => f t + g t) (v + v').
Proof.
  intros (F & HF & ->) (G & HG & ->). exists (fun t => F t + G t). split; [|ring]. intros t. apply (derivable_pt_lim_plus F G); [apply HF|apply HG].
Qed.
Lemma int_scal f a v : int f v -> int (fun t => a * f t) (a * v).
Proof. intros (F & HF & ->). exists (fun t => a * F t). split; [|ring]. intros t. apply (derivable_pt_lim_scal F). apply HF. Qed.
Lemma int_0 : int (fun _ => 0) 0.
Proof. exists (fun _ => 0). split; [|ring]. intros t. apply derivable_pt_lim_const. Qed.
Lemma int_sum n (f : nat -> R -> R) (v : nat -> R) : (forall i, (i < n)%nat -> int (f i) (v i)) -> int (fun t => sumf n (fun i => f i t)) (sumf n v).
Proof.
  induction n as [|n IH]; intros H; cbn [sumf]; [apply int_0|]. apply (int_plus (fun t => sumf n (fun i => f i t)) (f n)); [apply IH; intros; apply H; lia|apply H; lia].
Qed.
Lemma int_pow k : int (fun t => t ^ k) (1 / INR (S k)).
Proof.
  assert (P : 0 < INR (S k)) by (apply lt_0_INR; lia). exists (fun t => / INR (S k) * t ^ S k). split.
  - intros t. replace (t ^ k) with (/ INR (S k) * (INR (S k) * t ^ pred (S k))) by (cbn [pred]; field; lra).
    apply (derivable_pt_lim_scal (fun s => s ^ S k)). apply derivable_pt_lim_pow.
  - rewrite pow1, pow_i by lia. field. lra.
Qed.
Lemma int_exists n f : deg n f -> exists v, int f v.
Proof.
  intros H. destruct (deg_coefficients n f H) as [c Hc]. exists (sumf (S n) (fun k => c k * (1 / INR (S k)))).
  apply int_ext with (f := fun t => sumf (S n) (fun k => c k * t ^ k)); [|exact Hc].
  apply (int_sum (S n) (fun k t => c k * t ^ k)). intros k _. apply int_scal. apply int_pow.
Qed.
Lemma int_parts f f' g g' v : derivative f f' -> derivative g g' -> f 0 = 0 -> f 1 = 0 -> int (fun t => f t * g' t) v -> int (fun t => f' t * g t) (- v).
Proof.
  intros Hf Hg E0 E1 Hv. assert (A : int (fun t => f' t * g t + f t * g' t) 0).
  { exists (fun t => f t * g t). split; [|rewrite E0, E1; ring]. intros t. apply (derivable_pt_lim_mult f g); [apply Hf|apply Hg]. }
  apply int_ext with (f := fun t => (f' t * g t + f t * g' t) + - 1 * (f t * g' t)); [|intros; ring].
  replace (- v) with (0 + - 1 * v) by ring. apply (int_plus (fun t => f' t * g t + f t * g' t)); [exact A|]. apply int_scal. exact Hv.
Qed.
Lemma int_positive N f v a : deg N f -> (forall t, 0 <= t <= 1 -> 0 <= f t) -> f a <> 0 -> int f v -> 0 < v.
Proof.
  intros HN Hp Ha (F & HF & ->). destruct (Rlt_or_le 0 (F 1 - F 0)) as [L|L]; [exact L|exfalso].
  assert (Mono : forall s t, 0 <= s -> s <= t -> t <= 1 -> F s <= F t).
  { intros s t H0 Hst H1. destruct (Rle_lt_or_eq_dec s t Hst) as [Lt| ->]; [|lra].
    destruct (MVT_cor2 F f s t Lt) as (c & E & Hc); [intros; apply HF|]. assert (P := Hp c ltac:(lra)). assert (0 <= f c * (t - s)) by (apply Rmult_le_pos; lra). lra. }
  assert (Flat : forall s t, 0 <= s -> s < t -> t <= 1 -> exists c, s < c < t /\ f c = 0).
  { intros s t H0 Hst H1. destruct (MVT_cor2 F f s t Hst) as (c & E & Hc); [intros; apply HF|]. exists c. split; [exact Hc|].
    assert (A := Mono 0 s ltac:(lra) H0 ltac:(lra)). assert (B := Mono s t H0 ltac:(lra) H1). assert (C := Mono t 1 ltac:(lra) H1 ltac:(lra)).
    assert (Z : f c * (t - s) = 0) by lra. apply Rmult_integral in Z. destruct Z as [Z|Z]; [exact Z|lra]. }
  assert (PN : 0 < INR (S N)) by (apply lt_0_INR; lia).
  assert (Step : forall i, INR (S i) / INR (S N) = INR i / INR (S N) + / INR (S N)) by (intros i; rewrite (S_INR i); field; lra).
  assert (PI' : 0 < / INR (S N)) by (apply Rinv_0_lt_compat; exact PN).
  destruct (finite_choice 0 (S N) (fun i c => INR i / INR (S N) < c < INR (S i) / INR (S N) /\ f c = 0)) as [z Hz].
  { intros i Hi. apply Flat.
    - apply Rmult_le_pos; [apply pos_INR|lra].
    - rewrite Step. lra.
    - apply Rmult_le_reg_r with (INR (S N)); [exact PN|]. unfold Rdiv. rewrite Rmult_assoc, Rinv_l by lra. rewrite Rmult_1_r, Rmult_1_l. apply le_INR. lia. }
  apply Ha. apply (deg_roots N f z HN).
  - intros i j Hij. destruct (Hz i ltac:(lia)) as [Hi _]. destruct (Hz j ltac:(lia)) as [Hj _].
    assert (L' : INR (S i) / INR (S N) <= INR j / INR (S N)) by (apply Rmult_le_compat_r; [lra|apply le_INR; lia]). lra.
  - intros i Hi. apply Hz. lia.
Qed.

(** ** Zeros *)
Definition vanish (k : nat) (a : R) (f : R -> R) : Prop := exists N h, deg N h /\ forall t, f t = (t - a) ^ k * h t.
Lemma vanish_deriv k a f f' : vanish (S k) a f -> derivative f f' -> vanish k a f'.
Proof.
  intros (N & h & Hh & E) D. destruct (deg_deriv N h Hh) as (h' & Hh' & D'). exists (S N), (fun t => INR (S k) * h t + (t - a) * h' t). split.
  - apply deg_plus; [apply deg_S; apply deg_scal; exact Hh|].
    apply deg_ext with (f := fun t => h' t * ((t - a) / 1)); [apply deg_lin; apply deg_le with (n := pred N); [lia|exact Hh']|]. intros t. field.
  - intros t. apply (lim_unique f t); [apply D|]. apply lim_ext with (f := fun s => (s - a) ^ S k * h s); [exact E|].
    replace ((t - a) ^ k * (INR (S k) * h t + (t - a) * h' t)) with (INR (S k) * (t - a) ^ pred (S k) * 1 * h t + (t - a) ^ S k * h' t) by (cbn [pred pow]; ring).
    apply (derivable_pt_lim_mult (fun s => (s - a) ^ S k) h); [|apply D'].
    apply (derivable_pt_lim_comp (fun s => s - a) (fun y => y ^ S k)).
    + replace 1 with (1 - 0) by ring. apply (derivable_pt_lim_minus (fun s => s) (fun _ => a)); [apply derivable_pt_lim_id|apply derivable_pt_lim_const].
    + apply derivable_pt_lim_pow.
Qed.
Lemma vanish_zero k a f : vanish (S k) a f -> f a = 0.
Proof. intros (N & h & _ & E). rewrite E. cbn [pow]. ring. Qed.

Definition zeros (j : nat) (f : R -> R) : Prop := exists z : nat -> R, z 0%nat = 0 /\ z (S j) = 1 /\ (forall i, (i <= j)%nat -> z i < z (S i)) /\ forall i, (i <= S j)%nat -> f (z i) = 0.
Lemma rolle f f' a b : derivative f f' -> a < b -> f a = 0 -> f b = 0 -> exists c, a < c < b /\ f' c = 0.
Proof.
  intros D L Ea Eb. destruct (MVT_cor2 f f' a b L) as (c & E & Hc); [intros; apply D|]. exists c. split; [exact Hc|]. rewrite Ea, Eb in E.
  assert (Z : f' c * (b - a) = 0) by lra. apply Rmult_integral in Z. destruct Z as [Z|Z]; [exact Z|lra].
Qed.
Lemma zeros_step j f f' : zeros j f -> derivative f f' -> f' 0 = 0 -> f' 1 = 0 -> zeros (S j) f'.
Proof.
  intros (z & Z0 & Z1 & Zi & Zf) D E0 E1.
  destruct (finite_choice 0 (S j) (fun i c => z i < c < z (S i) /\ f' c = 0)) as [y Hy].
  { intros i Hi. apply (rolle f f' (z i) (z (S i)) D); [apply Zi; lia|apply Zf; lia|apply Zf; lia]. }
  exists (fun i => match i with O => 0 | S i' => if Nat.leb i' j then y i' else 1 end).
  split; [reflexivity|]. split; [destruct (Nat.leb_spec (S j) j); [lia|reflexivity]|]. split.
  - intros [|i] Hi.
    + cbn [Nat.leb]. destruct (Hy 0%nat ltac:(lia)) as [A _]. rewrite Z0 in A. lra.
    + destruct (Nat.leb_spec i j) as [L|L]; [|lia]. destruct (Hy i ltac:(lia)) as [A _]. destruct (Nat.leb_spec (S i) j) as [L'|L'].
      * destruct (Hy (S i) ltac:(lia)) as [B _]. lra.
      * assert (i = j) by lia. subst i. rewrite Z1 in A. lra.
  - intros [|i] Hi; [exact E0|]. destruct (Nat.leb_spec i j) as [L|L]; [|exact E1]. apply Hy. lia.
Qed.

Lemma factor_roots m : forall M f x, deg M f -> (forall i j, (i < j < m)%nat -> x i <> x j) -> (forall i, (i < m)%nat -> f (x i) = 0) ->
  exists r, deg (M - m) r /\ forall t, f t = prodf m (fun j => t - x j) * r t.
Proof.
  induction m as [|m IH]; intros M f x Hf Hx Hz.
  - exists f. rewrite Nat.sub_0_r. split; [exact Hf|]. intros t. cbn [prodf]. ring.
  - destruct (IH M f x Hf ltac:(intros; apply Hx; lia) ltac:(intros; apply Hz; lia)) as (r & Hr & E).
    assert (P : prodf m (fun j => x m - x j) <> 0).
    { assert (Q : forall k, (k <= m)%nat -> prodf k (fun j => x m - x j) <> 0).
      { induction k as [|k IHk]; intros Hk; cbn [prodf]; [lra|]. apply Rmult_integral_contrapositive. split; [apply IHk; lia|].
        assert (A := Hx k m ltac:(lia)). lra. }
      apply Q. lia. }
    assert (Rz : r (x m) = 0).
    { assert (A := Hz m ltac:(lia)). rewrite E in A. apply Rmult_integral in A. destruct A as [A|A]; [contradiction|exact A]. }
    destruct (M - m)%nat as [|d] eqn:Ed.
    + exists (fun _ => 0). split; [apply deg_const|]. intros t. rewrite E. destruct Hr as [c Hc]. rewrite Hc, <- (Hc (x m)), Rz. ring.
    + destruct (deg_divide d r (x m) Hr) as (g & Hg & Eg). exists g. split; [replace (M - S m)%nat with d by lia; exact Hg|].
      intros t. rewrite E, Eg, Rz. cbn [prodf]. ring.
Qed.

(** ** The chain of derivatives *)
Lemma chain N g : deg N g -> forall J, exists G : nat -> R -> R, (forall t, G 0%nat t = g t) /\ (forall j, (j < J)%nat -> derivative (G j) (G (S j))) /\ forall j, (j <= J)%nat -> deg (N - j) (G j).
Proof.
  intros Hg. induction J as [|J (G & E & D & Hd)].
  - exists (fun _ => g). split; [reflexivity|]. split; [intros; lia|]. intros j Hj. replace (N - j)%nat with N by lia. exact Hg.
  - destruct (deg_deriv _ _ (Hd J ltac:(lia))) as (f' & Hf' & Df). exists (fun j => if Nat.leb j J then G j else f'). split; [exact E|]. split.
    + intros j Hj. destruct (Nat.leb_spec j J); [|lia]. destruct (Nat.leb_spec (S j) J); [apply D; lia|]. assert (j = J) by lia. subst j. exact Df.
    + intros j Hj. destruct (Nat.leb_spec j J); [apply Hd; lia|]. assert (j = S J) by lia. subst j. replace (N - S J)%nat with (pred (N - J)) by lia. exact Hf'.
Qed.

Section Exists.
  Variable n : nat.
  Hypothesis Hn : (2 <= n)%nat.
  Let g (t : R) : R := (t - 0) ^ n * (t - 1) ^ n.
  Lemma deg_shift a k : deg k (fun t => (t - a) ^ k).
  Proof.
    induction k as [|k IH]; [exists 1; reflexivity|]. apply deg_ext with (f := fun t => (t - a) ^ k * ((t - a) / 1)); [apply deg_lin; exact IH|]. intros t. cbn [pow]. field.
  Qed.
  Lemma deg_g : deg (2 * n) g.
  Proof. replace (2 * n)%nat with (n + n)%nat by lia. apply (deg_mult n n); apply deg_shift. Qed.

  Lemma node_polynomial : exists N : R -> R, deg (n + 1) N /\ zeros (n - 1) N /\ (exists t, N t <> 0) /\ forall r, deg (n - 2) r -> int (fun t => N t * r t) 0.
  Proof.
    destruct (chain (2 * n) g deg_g (n - 1)) as (G & E & D & Hd).
    assert (V : forall a, (a = 0 \/ a = 1) -> forall j, (j <= n - 1)%nat -> vanish (n - j) a (G j)).
    { intros a Ha. induction j as [|j IH]; intros Hj.
      - rewrite Nat.sub_0_r. destruct Ha as [->| ->].
        + exists n, (fun t => (t - 1) ^ n). split; [apply deg_shift|]. intros t. rewrite E. reflexivity.
        + exists n, (fun t => (t - 0) ^ n). split; [apply deg_shift|]. intros t. rewrite E. unfold g. ring.
      - apply (vanish_deriv (n - S j) a (G j)); [|apply D; lia]. replace (S (n - S j)) with (n - j)%nat by lia. apply IH. lia. }
    assert (Z0 : forall j, (j <= n - 1)%nat -> G j 0 = 0).
    { intros j Hj. apply (vanish_zero (n - j - 1)). replace (S (n - j - 1)) with (n - j)%nat by lia. apply V; [left; reflexivity|exact Hj]. }
    assert (Z1 : forall j, (j <= n - 1)%nat -> G j 1 = 0).
    { intros j Hj. apply (vanish_zero (n - j - 1)). replace (S (n - j - 1)) with (n - j)%nat by lia. apply V; [right; reflexivity|exact Hj]. }
    exists (G (n - 1)%nat). split; [replace (n + 1)%nat with (2 * n - (n - 1))%nat by lia; apply Hd; lia|]. split; [|split].
    - assert (Q : forall j, (j <= n - 1)%nat -> zeros j (G j)).
      { induction j as [|j IH]; intros Hj.
        - exists INR. split; [reflexivity|]. split; [reflexivity|]. split; [intros i _; apply lt_INR; lia|].
          intros [|[|i]] Hi; [apply Z0; lia|apply Z1; lia|lia].
        - apply (zeros_step j (G j)); [apply IH; lia|apply D; lia|apply Z0; exact Hj|apply Z1; exact Hj]. }
      apply Q. lia.
    - assert (Q : forall j, (j <= n - 1)%nat -> exists t, G j t <> 0).
      { induction j as [|j IH]; intros Hj.
        - exists 2. rewrite E. unfold g. apply Rmult_integral_contrapositive. split; apply pow_nonzero; lra.
        - destruct (IH ltac:(lia)) as [t Ht]. assert (Dj := D j ltac:(lia)). assert (Ej := Z0 j ltac:(lia)).
          destruct (Rtotal_order 0 t) as [L|[<-|L]].
          + destruct (MVT_cor2 (G j) (G (S j)) 0 t L) as (c & Ec & _); [intros; apply Dj|]. exists c. intros X. rewrite X in Ec. lra.
          + congruence.
          + destruct (MVT_cor2 (G j) (G (S j)) t 0 L) as (c & Ec & _); [intros; apply Dj|]. exists c. intros X. rewrite X in Ec. lra. }
      apply Q. lia.
    - assert (Q : forall j, (j <= n - 1)%nat -> forall d r, (d < j)%nat -> deg d r -> int (fun t => G j t * r t) 0).
      { induction j as [|j IH]; intros Hj d r Hdj Hr; [lia|]. destruct (deg_deriv d r Hr) as (r' & Hr' & Dr).
        replace 0 with (- 0) by ring. apply (int_parts (G j) (G (S j)) r r' 0 (D j ltac:(lia)) Dr); [apply Z0; lia|apply Z1; lia|].
        destruct d as [|d].
        - apply int_ext with (f := fun _ => 0); [apply int_0|]. intros t. destruct Hr as [c Hc].
          assert (X : r' t = 0) by (apply (lim_unique r t); [apply Dr|apply lim_ext with (f := fun _ => c); [exact Hc|apply derivable_pt_lim_const]]). rewrite X. ring.
        - cbn [pred] in Hr'. apply (IH ltac:(lia) d); [lia|exact Hr']. }
      intros r Hr. apply (Q (n - 1)%nat ltac:(lia) (n - 2)%nat); [lia|exact Hr].
  Qed.

  Theorem lobatto_many : exists x w, gauss_lobatto n x w.
  Proof.
    destruct node_polynomial as (N & HN & (x & X0 & X1 & Xi & Xz) & [t0 Ht0] & Orth).
    replace (S (n - 1)) with n in * by lia.
    assert (Inc : forall i j, (i < j <= n)%nat -> x i < x j).
    { intros i j. induction j as [|j IH]; intros H; [lia|]. assert (A := Xi j ltac:(lia)). destruct (Nat.eq_dec i j) as [->|Ne]; [exact A|]. specialize (IH ltac:(lia)). lra. }
    assert (Dis : distinct n x) by (intros i j H E; specialize (Inc i j H); lra).
    assert (Unit : forall i, (i <= n)%nat -> 0 <= x i <= 1).
    { intros i Hi. split.
      - destruct (Nat.eq_dec i 0) as [->|Ne]; [lra|]. assert (A := Inc 0%nat i ltac:(lia)). lra.
      - destruct (Nat.eq_dec i n) as [->|Ne]; [lra|]. assert (A := Inc i n ltac:(lia)). lra. }
    destruct (factor_roots (S n) (n + 1) N x HN ltac:(intros; apply Dis; lia) ltac:(intros; apply Xz; lia)) as (r0 & Hr0 & E0).
    replace (n + 1 - S n)%nat with 0%nat in Hr0 by lia. destruct Hr0 as [c Hc].
    assert (Hc0 : c <> 0) by (intros Z; apply Ht0; rewrite E0, Hc, Z; ring).
    destruct (finite_choice 0 (S n) (fun i v => int (lagrange x n i) v)) as [w Hw].
    { intros i Hi. apply (int_exists n). apply deg_lagrange; [lia]. }
    assert (Exact : forall p, deg (2 * n - 1) p -> int p (sumf (S n) (fun s => p (x s) * w s))).
    { intros p Hp. set (P := fun t => sumf (S n) (fun i => p (x i) * lagrange x n i t)).
      assert (DP : deg n P) by (apply (deg_sum n (S n) (fun i t => p (x i) * lagrange x n i t)); intros i Hi; apply deg_scal; apply deg_lagrange; lia).
      assert (At : forall s, (s <= n)%nat -> P (x s) = p (x s)).
      { intros s Hs. unfold P. rewrite (sumf_ext _ _ (fun i => delta s i * p (x i))); [apply sumf_delta; lia|]. intros i Hi. rewrite (lagrange_delta x n Dis) by lia.
        unfold delta. rewrite (Nat.eqb_sym i s). ring. }
      destruct (factor_roots (S n) (2 * n - 1) (fun t => p t + - 1 * P t) x) as (r & Hr & Er).
      - apply deg_plus; [exact Hp|]. apply deg_le with (n := n); [lia|]. apply deg_scal. exact DP.
      - intros; apply Dis; lia.
      - intros i Hi. rewrite At by lia. ring.
      - replace (2 * n - 1 - S n)%nat with (n - 2)%nat in Hr by lia. assert (O := Orth r Hr).
        apply int_ext with (f := fun t => P t + / c * (N t * r t)).
        + replace (sumf (S n) (fun s => p (x s) * w s)) with (sumf (S n) (fun s => p (x s) * w s) + / c * 0) by ring.
          apply int_plus; [|apply int_scal; exact O]. apply (int_sum (S n) (fun i t => p (x i) * lagrange x n i t)). intros i Hi. apply int_scal. apply Hw. exact Hi.
        + intros t. assert (A := Er t). assert (B := E0 t). rewrite Hc in B. rewrite B. replace (/ c * (prodf (S n) (fun j => t - x j) * c * r t)) with (prodf (S n) (fun j => t - x j) * r t) by (field; exact Hc0). lra. }
    exists x, w. constructor; [exact X0|exact X1|exact Inc| |].
    - (* weights *)
      intros i Hi.
      set (st := fun (j : nat) (t : R) => if Nat.eqb j 0 then t else if Nat.eqb j n then 1 - t else (t - x j) ^ 2).
      set (f := fun t => prodf (S n) (fun j => if Nat.eqb j i then 1 else st j t)).
      assert (NN : forall t, 0 <= t <= 1 -> forall m, 0 <= prodf m (fun j => if Nat.eqb j i then 1 else st j t)).
      { intros t Ht. induction m as [|m IH]; cbn [prodf]; [lra|]. apply Rmult_le_pos; [exact IH|]. destruct (Nat.eqb m i); [lra|]. unfold st.
        destruct (Nat.eqb m 0); [lra|]. destruct (Nat.eqb m n); [lra|]. apply pow2_ge_0. }
      assert (Other : forall s, (s <= n)%nat -> s <> i -> f (x s) = 0).
      { intros s Hs Ns. apply (prodf_zero (S n) _ s); [lia|]. destruct (Nat.eqb_spec s i); [congruence|]. unfold st.
        destruct (Nat.eqb_spec s 0) as [->|_]; [exact X0|]. destruct (Nat.eqb_spec s n) as [->|_]; [rewrite X1; ring|]. ring. }
      assert (Own : 0 < f (x i)).
      { assert (Q : forall m, (m <= S n)%nat -> 0 < prodf m (fun j => if Nat.eqb j i then 1 else st j (x i))).
        { induction m as [|m IH]; intros Hm; cbn [prodf]; [lra|]. apply Rmult_lt_0_compat; [apply IH; lia|]. destruct (Nat.eqb_spec m i) as [|Ne]; [lra|]. unfold st.
          destruct (Nat.eqb_spec m 0) as [->|_]; [assert (A := Inc 0%nat i ltac:(lia)); lra|]. destruct (Nat.eqb_spec m n) as [->|_]; [assert (A := Inc i n ltac:(lia)); lra|].
          assert (A := neq x n Dis i m Hi ltac:(lia) ltac:(auto)). rewrite <- Rsqr_pow2. apply Rsqr_pos_lt. lra. }
        apply Q. lia. }
      assert (Degree : deg (2 * n - 1) f).
      { set (dj := fun j => if Nat.eqb j i then 0%nat else if Nat.eqb j 0 then 1%nat else if Nat.eqb j n then 1%nat else 2%nat).
        set (cnt := fix cnt (m : nat) : nat := match m with O => 0%nat | S k => (cnt k + dj k)%nat end).
        assert (Dm : forall m, deg (cnt m) (fun t => prodf m (fun j => if Nat.eqb j i then 1 else st j t))).
        { induction m as [|m IH]; cbn [prodf cnt]; [exists 1; reflexivity|]. apply (deg_mult (cnt m) (dj m)); [exact IH|]. unfold dj, st.
          destruct (Nat.eqb m i); [apply deg_const|]. destruct (Nat.eqb m 0).
          - apply deg_ext with (f := fun t => t * 1); [apply (deg_t 0); apply deg_const|intros; ring].
          - destruct (Nat.eqb m n); [|apply deg_shift]. apply deg_ext with (f := fun t => 1 + - 1 * (t * 1)); [apply deg_plus; [apply deg_const|apply deg_scal; apply (deg_t 0); apply deg_const]|intros; ring]. }
        assert (Cm : forall m, (1 <= m <= n)%nat -> (cnt m <= 2 * m - 1)%nat /\ ((i < m)%nat -> (cnt m <= 2 * m - 2)%nat)).
        { induction m as [|m IH]; intros Hm; [lia|]. cbn [cnt]. destruct (Nat.eq_dec m 0) as [->|Nm].
          - cbn [cnt]. unfold dj. destruct (Nat.eqb_spec 0 i) as [<-|Ne]; cbn [Nat.eqb]; split; lia.
          - destruct (IH ltac:(lia)) as [A B]. unfold dj. destruct (Nat.eqb_spec m i) as [->|Ne]; [split; lia|].
            destruct (Nat.eqb_spec m 0); [lia|]. destruct (Nat.eqb_spec m n); [lia|]. split; [lia|]. intros L. specialize (B ltac:(lia)). lia. }
        apply deg_le with (n := cnt (S n)); [|exact (Dm (S n))]. cbn [cnt]. destruct (Cm n ltac:(lia)) as [A B]. unfold dj.
        destruct (Nat.eqb_spec n i) as [<-|Ne]; [lia|]. destruct (Nat.eqb_spec n 0); [lia|]. rewrite Nat.eqb_refl. specialize (B ltac:(lia)). lia. }
      assert (P := int_positive _ f _ (x i) Degree (fun t Ht => NN t Ht (S n)) ltac:(lra) (Exact f Degree)).
      rewrite (sumf_ext _ _ (fun s => delta i s * (f (x i) * w i))) in P.
      + rewrite (sumf_delta (S n) i (fun _ => f (x i) * w i)) in P by lia. apply Rmult_lt_reg_l with (f (x i)); [exact Own|]. lra.
      + intros s Hs. unfold delta. destruct (Nat.eqb_spec i s) as [<-|Ne]; [ring|]. rewrite Other by (auto; lia). ring.
    - intros k Hk. assert (A := Exact (fun t => t ^ k) (deg_pow (2 * n - 1) k Hk)). assert (B := int_pow k).
      rewrite <- (int_unique _ _ _ A B). apply sumf_ext. intros s _. ring.
  Qed.
End Exists.

Theorem lobatto_exists n : (1 <= n)%nat -> exists x w, gauss_lobatto n x w.
Proof.
  intros H. destruct (Nat.eq_dec n 1) as [->|N]; [|apply lobatto_many; lia].
  exists INR, (fun _ => 1 / 2). exact trapezoidal.
Qed.

(** ** There is only one *)
Lemma rule_integrates n x w p : (1 <= n)%nat -> gauss_lobatto n x w -> deg (2 * n - 1) p -> int p (sumf (S n) (fun s => w s * p (x s))).
Proof.
  intros Hn L Hp. destruct (deg_coefficients _ _ Hp) as [c Hc].
  replace (sumf (S n) (fun s => w s * p (x s))) with (sumf (S (2 * n - 1)) (fun k => c k * (1 / INR (S k)))).
  - apply int_ext with (f := fun t => sumf (S (2 * n - 1)) (fun k => c k * t ^ k)); [|exact Hc].
    apply (int_sum _ (fun k t => c k * t ^ k)). intros k _. apply int_scal. apply int_pow.
  - transitivity (sumf (S (2 * n - 1)) (fun k => sumf (S n) (fun s => c k * (w s * x s ^ k)))).
    + apply sumf_ext. intros k Hk. rewrite sumf_scal. rewrite (gl_exact _ _ _ L k) by lia. reflexivity.
    + rewrite sumf_swap. apply sumf_ext. intros s Hs. rewrite Hc. rewrite <- sumf_scal. apply sumf_ext. intros k _. ring.
Qed.
Lemma monic m x : exists q, deg (pred m) q /\ ((0 < m)%nat -> forall t, prodf m (fun j => t - x j) = t ^ m + q t).
Proof.
  induction m as [|m (q & Hq & E)]; [exists (fun _ => 0); split; [apply deg_const|lia]|].
  destruct m as [|m].
  - exists (fun _ => - x 0%nat). split; [apply deg_const|]. intros _ t. cbn [prodf pow]. ring.
  - exists (fun t => t * q t + (- x (S m) * t ^ S m + - x (S m) * q t)). split.
    + cbn [pred] in *. apply deg_plus; [apply deg_t; exact Hq|]. apply deg_plus; apply deg_scal; [apply deg_pow; lia|apply deg_S; exact Hq].
    + intros _ t. assert (A := E ltac:(lia) t). change (prodf (S (S m)) (fun j => t - x j)) with (prodf (S m) (fun j => t - x j) * (t - x (S m))). rewrite A. cbn [pow]. ring.
Qed.
Lemma deg_nodes m x : deg m (fun t => prodf m (fun j => t - x j)).
Proof.
  induction m as [|m IH]; [exists 1; reflexivity|].
  apply deg_ext with (f := fun t => prodf m (fun j => t - x j) * ((t - x m) / 1)); [apply deg_lin; exact IH|]. intros t. cbn [prodf]. field.
Qed.
Lemma prod_zero m x t : prodf m (fun j => t - x j) = 0 -> exists j, (j < m)%nat /\ t = x j.
Proof.
  induction m as [|m IH]; cbn [prodf]; intros H; [lra|]. apply Rmult_integral in H. destruct H as [H|H].
  - destruct (IH H) as (j & Hj & E). exists j. split; [lia|exact E].
  - exists m. split; [lia|lra].
Qed.
Lemma rule_orthogonal n x w r : (2 <= n)%nat -> gauss_lobatto n x w -> deg (n - 2) r -> int (fun t => prodf (S n) (fun j => t - x j) * r t) 0.
Proof.
  intros Hn L Hr. assert (D : deg (2 * n - 1) (fun t => prodf (S n) (fun j => t - x j) * r t)).
  { replace (2 * n - 1)%nat with (S n + (n - 2))%nat by lia. apply deg_mult; [apply deg_nodes|exact Hr]. }
  assert (A := rule_integrates n x w _ ltac:(lia) L D).
  replace 0 with (sumf (S n) (fun s => w s * (prodf (S n) (fun j => x s - x j) * r (x s)))); [exact A|].
  rewrite (sumf_ext _ _ (fun _ => 0)); [apply sumf_zero; reflexivity|]. intros s Hs. rewrite (prodf_zero (S n) _ s) by (try lia; ring). ring.
Qed.
Lemma increasing_same n x y : (forall i j, (i < j <= n)%nat -> x i < x j) -> (forall i j, (i < j <= n)%nat -> y i < y j) ->
  (forall i, (i <= n)%nat -> exists j, (j <= n)%nat /\ x i = y j) -> forall i, (i <= n)%nat -> x i = y i.
Proof.
  intros Hx Hy H. destruct (finite_choice 0%nat (S n) (fun i j => (j <= n)%nat /\ x i = y j)) as [s Hs]; [intros i Hi; apply H; lia|].
  assert (Inc : forall i j, (i < j <= n)%nat -> (s i < s j)%nat).
  { intros i j Hij. destruct (Hs i ltac:(lia)) as [A B]. destruct (Hs j ltac:(lia)) as [C D]. assert (X := Hx i j Hij).
    destruct (Nat.lt_total (s i) (s j)) as [Lt|[Eq|Gt]]; [exact Lt|rewrite Eq in B; lra|assert (Y := Hy (s j) (s i) ltac:(lia)); lra]. }
  assert (Low : forall i, (i <= n)%nat -> (i <= s i)%nat).
  { induction i as [|i IH]; intros Hi; [lia|]. assert (A := Inc i (S i) ltac:(lia)). specialize (IH ltac:(lia)). lia. }
  assert (High : forall k i, (i + k = n)%nat -> (s i <= i)%nat).
  { induction k as [|k IH]; intros i Hi; [destruct (Hs i ltac:(lia)); lia|]. assert (A := Inc i (S i) ltac:(lia)). specialize (IH (S i) ltac:(lia)). lia. }
  intros i Hi. destruct (Hs i ltac:(lia)) as [A B]. assert (C := Low i Hi). assert (D := High (n - i)%nat i ltac:(lia)). replace (s i) with i in B by lia. exact B.
Qed.
Theorem lobatto_unique n x w y v : (1 <= n)%nat -> gauss_lobatto n x w -> gauss_lobatto n y v -> forall i, (i <= n)%nat -> x i = y i /\ w i = v i.
Proof.
  intros Hn L M.
  assert (Nodes : forall i, (i <= n)%nat -> x i = y i).
  { destruct (Nat.eq_dec n 1) as [->|N1].
    - intros [|[|i]] Hi; [rewrite (gl_first _ _ _ L), (gl_first _ _ _ M); reflexivity|rewrite (gl_last _ _ _ L), (gl_last _ _ _ M); reflexivity|lia].
    - apply increasing_same; [apply (gl_increasing _ _ _ L)|apply (gl_increasing _ _ _ M)|].
      destruct (monic (S n) x) as (q & Hq & Eq). destruct (monic (S n) y) as (p & Hp & Ep). cbn [pred] in Hq, Hp. specialize (Eq ltac:(lia)). specialize (Ep ltac:(lia)).
      set (d := fun t => q t + - 1 * p t). assert (Dd : deg n d) by (apply deg_plus; [exact Hq|apply deg_scal; exact Hp]).
      assert (Ed : forall t, d t = prodf (S n) (fun j => t - x j) + - 1 * prodf (S n) (fun j => t - y j)) by (intros t; unfold d; rewrite Eq, Ep; ring).
      assert (Z : forall i, (i < 2)%nat -> d (INR i) = 0).
      { intros i Hi. rewrite Ed. destruct i as [|[|i]]; [| |lia].
        - rewrite (prodf_zero (S n) _ 0%nat) by (try lia; rewrite (gl_first _ _ _ L); cbn; ring). rewrite (prodf_zero (S n) _ 0%nat) by (try lia; rewrite (gl_first _ _ _ M); cbn; ring). ring.
        - rewrite (prodf_zero (S n) _ n) by (try lia; rewrite (gl_last _ _ _ L); cbn; ring). rewrite (prodf_zero (S n) _ n) by (try lia; rewrite (gl_last _ _ _ M); cbn; ring). ring. }
      destruct (factor_roots 2 n d INR Dd) as (e & He & Ee); [intros i j Hij E; apply INR_eq in E; lia|exact Z|].
      assert (I0 : int (fun t => d t * e t) 0).
      { apply int_ext with (f := fun t => prodf (S n) (fun j => t - x j) * e t + - 1 * (prodf (S n) (fun j => t - y j) * e t)); [|intros t; rewrite Ed; ring].
        replace 0 with (0 + - 1 * 0) by ring. apply int_plus; [apply (rule_orthogonal n x w); [lia|exact L|exact He]|].
        apply int_scal. apply (rule_orthogonal n y v); [lia|exact M|exact He]. }
      assert (Ze : forall t, e t = 0).
      { intros t0. destruct (Req_dec (e t0) 0) as [X|X]; [exact X|exfalso].
        set (f := fun t => - 1 * (d t * e t)). assert (Ef : forall t, f t = t * (1 - t) * (e t) ^ 2) by (intros t; unfold f; rewrite Ee; cbn [prodf INR]; ring).
        assert (Df : deg (n + (n - 2)) f) by (apply deg_scal; apply deg_mult; [exact Dd|exact He]).
        assert (Nz : exists a, f a <> 0).
        { destruct (Req_dec (f t0) 0) as [F0|F0]; [|exists t0; exact F0].
          (* e vanishes nowhere near: otherwise it is zero *)
          assert (C : exists i, (i <= n - 2)%nat /\ e (INR i + 2) <> 0).
          { assert (Search : forall m, (exists i, (i < m)%nat /\ e (INR i + 2) <> 0) \/ forall i, (i < m)%nat -> e (INR i + 2) = 0).
            { induction m as [|m [(i & Hi & E)|A]]; [right; intros; lia|left; exists i; split; [lia|exact E]|].
              destruct (Req_dec (e (INR m + 2)) 0) as [E|E]; [right|left; exists m; split; [lia|exact E]].
              intros i Hi. destruct (Nat.eq_dec i m) as [->|Ne]; [exact E|apply A; lia]. }
            destruct (Search (S (n - 2))) as [(i & Hi & E)|A]; [exists i; split; [lia|exact E]|].
            exfalso. apply X. apply (deg_roots (n - 2) e (fun i => INR i + 2) He); [|intros; apply A; lia].
            intros i j Hij E. assert (B : INR i = INR j) by lra. apply INR_eq in B. lia. }
          destruct C as (i & Hi & Ci). exists (INR i + 2). rewrite Ef. assert (P := pos_INR i).
          apply Rmult_integral_contrapositive. split; [apply Rmult_integral_contrapositive; split; lra|apply pow_nonzero; exact Ci]. }
        destruct Nz as [a Ha]. assert (P := int_positive _ f (- 1 * 0) a Df).
        assert (Q : 0 < - 1 * 0); [|lra]. apply P; [|exact Ha|apply int_scal; exact I0].
        intros t Ht. rewrite Ef. apply Rmult_le_pos; [apply Rmult_le_pos; lra|apply pow2_ge_0]. }
      intros i Hi. assert (R0 : prodf (S n) (fun j => x i - y j) = 0).
      { assert (A := Ed (x i)). rewrite Ee, Ze in A. rewrite (prodf_zero (S n) (fun j => x i - x j) i) in A by (try lia; ring). lra. }
      destruct (prod_zero _ _ _ R0) as (j & Hj & E). exists j. split; [lia|exact E]. }
  intros i Hi. split; [apply Nodes; exact Hi|].
  assert (Dis : distinct n x) by (intros a b H E; assert (A := gl_increasing _ _ _ L a b H); lra).
  assert (Dl : deg (2 * n - 1) (lagrange x n i)) by (apply deg_le with (n := n); [lia|apply deg_lagrange; lia]).
  assert (W : forall u, gauss_lobatto n x u -> int (lagrange x n i) (u i)).
  { intros u U. assert (A := rule_integrates n x u _ Hn U Dl). rewrite (sumf_ext _ _ (fun s => delta i s * u s)) in A.
    - rewrite sumf_delta in A by lia. exact A.
    - intros s Hs. rewrite (lagrange_delta x n Dis) by lia. ring. }
  apply (int_unique (lagrange x n i)); [apply W; exact L|]. apply W.
  destruct M as [m0 m1 m2 m3 m4]. constructor; [exact (gl_first _ _ _ L)|exact (gl_last _ _ _ L)|exact (gl_increasing _ _ _ L)|exact m3|].
  intros k Hk. rewrite <- (m4 k Hk). apply sumf_ext. intros s Hs. rewrite Nodes by lia. reflexivity.
Qed.
(** A family of rules, one for every number of points (only finitely many are chosen at a time, so no axiom of choice). *)
Theorem lobatto_family K : exists lobatto weights : nat -> nat -> R, forall n, (1 <= n <= K)%nat -> gauss_lobatto n (lobatto (n + 1)%nat) (weights (n + 1)%nat).
Proof.
  destruct (finite_choice (fun _ => 0, fun _ => 0) (S K) (fun n xw => (1 <= n)%nat -> gauss_lobatto n (fst xw) (snd xw))) as [f Hf].
  - intros n _. destruct n as [|n]; [exists (fun _ => 0, fun _ => 0); lia|]. destruct (lobatto_exists (S n) ltac:(lia)) as (x & w & H). exists (x, w). intros _. exact H.
  - exists (fun m => fst (f (m - 1)%nat)), (fun m => snd (f (m - 1)%nat)). intros n Hn. replace (n + 1 - 1)%nat with n by lia. apply Hf; lia.
Qed.
Lemma lobatto_ordered n x w : gauss_lobatto n x w -> ordered_points n x /\ x 0%nat = 0 /\ x n = 1.
Proof.
  intros [A B C _ _]. split; [|split; assumption]. split; [|exact C]. intros i Hi. split.
  - destruct (Nat.eq_dec i 0) as [->|N]; [lra|]. assert (X := C 0%nat i ltac:(lia)). lra.
  - destruct (Nat.eq_dec i n) as [->|N]; [lra|]. assert (X := C i n ltac:(lia)). lra.
Qed.
