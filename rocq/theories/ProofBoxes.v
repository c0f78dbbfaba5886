(** Gauss-Lobatto elements on boxes satisfy the hypotheses on the discontinuous Galerkin method. *)
From Coq Require Import Permutation.
From Verif Require Import Prelude BigSum ModelStencils ModelSemiLagrangian ModelSEDG SpecSEDG ModelElements SpecElements ModelBoxes SpecBoxes ProofSemiLagrangian ProofElements.
Local Open Scope R_scope.

(** ** Derivatives *)
Lemma prod_derivative N (f : nat -> R -> R) (f' : nat -> R) t : (forall j, (j < N)%nat -> derivable_pt_lim (f j) t (f' j)) ->
  derivable_pt_lim (fun s => prodf N (fun j => f j s)) t (sumf N (fun l => f' l * prodf N (fun j => if Nat.eqb j l then 1 else f j t))).
Proof.
  induction N as [|N IH]; intros H; cbn [prodf sumf]; [apply derivable_pt_lim_const|].
  replace (sumf N (fun l => f' l * (prodf N (fun j => if Nat.eqb j l then 1 else f j t) * (if Nat.eqb N l then 1 else f N t))) +
    f' N * (prodf N (fun j => if Nat.eqb j N then 1 else f j t) * (if Nat.eqb N N then 1 else f N t)))
    with (sumf N (fun l => f' l * prodf N (fun j => if Nat.eqb j l then 1 else f j t)) * f N t + prodf N (fun j => f j t) * f' N).
  - apply (derivable_pt_lim_mult (fun s => prodf N (fun j => f j s)) (f N)); [apply IH; intros; apply H; lia|apply H; lia].
  - rewrite Nat.eqb_refl. rewrite <- sumf_scal_r. f_equal.
    + apply sumf_ext. intros l Hl. destruct (Nat.eqb_spec N l); [lia|]. ring.
    + rewrite (prodf_ext N (fun j => if Nat.eqb j N then 1 else f j t) (fun j => f j t)); [ring|]. intros j Hj. destruct (Nat.eqb_spec j N); [lia|reflexivity].
Qed.
Lemma lim_ext f g t l : (forall s, g s = f s) -> derivable_pt_lim f t l -> derivable_pt_lim g t l.
Proof. intros E H eps He. destruct (H eps He) as [d Hd]. exists d. intros h Hh Hl. rewrite !E. apply Hd; assumption. Qed.
Lemma lagrange_derivative x n i t : derivable_pt_lim (lagrange x n i) t (dlagrange x n i t).
Proof.
  unfold lagrange, dlagrange.
  apply (prod_derivative (S n) (fun j s => if Nat.eqb j i then 1 else (s - x j) / (x i - x j)) (fun l => if Nat.eqb l i then 0 else / (x i - x l))).
  intros j _. destruct (Nat.eqb j i); [apply derivable_pt_lim_const|].
  apply lim_ext with (f := fun s => / (x i - x j) * s + - x j / (x i - x j)); [intros s; unfold Rdiv; ring|].
  set (a := / (x i - x j)). enough (X : derivable_pt_lim (fun s => a * s + - x j / (x i - x j)) t (a * 1 + 0)) by (rewrite Rmult_1_r, Rplus_0_r in X; exact X).
  apply (derivable_pt_lim_plus (fun s => a * s) (fun _ => - x j / (x i - x j))); [|apply derivable_pt_lim_const].
  apply (derivable_pt_lim_scal (fun s => s)). apply derivable_pt_lim_id.
Qed.
Lemma sum_derivative N (f : nat -> R -> R) (f' : nat -> R) t : (forall j, (j < N)%nat -> derivable_pt_lim (f j) t (f' j)) ->
  derivable_pt_lim (fun s => sumf N (fun j => f j s)) t (sumf N f').
Proof.
  induction N as [|N IH]; intros H; cbn [sumf]; [apply derivable_pt_lim_const|].
  apply (derivable_pt_lim_plus (fun s => sumf N (fun j => f j s)) (f N)); [apply IH; intros; apply H; lia|apply H; lia].
Qed.
Lemma lim_unique f t a b : derivable_pt_lim f t a -> derivable_pt_lim f t b -> a = b.
Proof. apply uniqueness_limite. Qed.

(** Products and coefficients of polynomials. *)
Lemma deg_mult n m : forall f g, deg n f -> deg m g -> deg (n + m) (fun t => f t * g t).
Proof.
  induction n as [|n IH]; intros f g Hf Hg.
  - destruct Hf as [c Hc]. apply deg_ext with (f := fun t => c * g t); [apply deg_scal; exact Hg|]. intros t. rewrite Hc. reflexivity.
  - destruct Hf as (c & f' & Hf & E). apply deg_ext with (f := fun t => c * g t + t * (f' t * g t)).
    + apply deg_plus; [apply deg_le with (n := m); [lia|]; apply deg_scal; exact Hg|]. apply (deg_t (n + m)). apply IH; assumption.
    + intros t. rewrite E. ring.
Qed.
Lemma deg_coefficients n : forall f, deg n f -> exists c, forall t, f t = sumf (S n) (fun k => c k * t ^ k).
Proof.
  induction n as [|n IH]; intros f H.
  - destruct H as [c Hc]. exists (fun _ => c). intros t. rewrite Hc. cbn [sumf pow]. ring.
  - destruct H as (c & g & Hg & E). destruct (IH g Hg) as [d Hd]. exists (fun k => match k with O => c | S j => d j end).
    intros t. rewrite E, Hd. rewrite (sumf_S_first (S n)). cbn [pow]. rewrite <- (sumf_scal (S n) t). rewrite Rmult_1_r. f_equal. apply sumf_ext. intros k _. ring.
Qed.

(** ** One dimension *)
Section Rule.
  Variables (n : nat) (x w : nat -> R).
  Hypothesis HL : gauss_lobatto n x w.
  Lemma gl_distinct : distinct n x.
  Proof. intros i j L E. assert (A := gl_increasing n x w HL i j L). lra. Qed.
  Lemma exact_derivative N G g : (N <= 2 * n)%nat -> deg N G -> (forall t, derivable_pt_lim G t (g t)) -> sumf (S n) (fun s => w s * g (x s)) = G 1 - G 0.
  Proof.
    intros HN HG Hg. destruct (deg_coefficients N G HG) as [c Hc].
    assert (E : forall t, g t = sumf (S N) (fun k => c k * (INR k * t ^ pred k))).
    { intros t. apply (lim_unique G t); [apply Hg|]. apply lim_ext with (f := fun s => sumf (S N) (fun k => c k * s ^ k)); [exact Hc|].
      apply (sum_derivative (S N) (fun k s => c k * s ^ k)). intros k _. apply (derivable_pt_lim_scal (fun s => s ^ k)). apply derivable_pt_lim_pow. }
    rewrite (sumf_ext (S n) _ (fun s => sumf (S N) (fun k => c k * INR k * (w s * x s ^ pred k)))).
    - rewrite sumf_swap. rewrite !Hc. rewrite <- sumf_minus. apply sumf_ext. intros k Hk. rewrite sumf_scal.
      destruct k as [|k]; [cbn; ring|]. cbn [pred]. rewrite (gl_exact n x w HL k) by lia. rewrite pow1, pow_i by lia. assert (P : 0 < INR (S k)) by (apply lt_0_INR; lia). field. lra.
    - intros s _. rewrite E. rewrite <- sumf_scal. apply sumf_ext. intros k _. ring.
  Qed.
  Lemma line_parts (u v : nat -> R) :
    sumf (S n) (fun s => w s * (u s * sumf (S n) (fun r => v r * dlagrange x n r (x s)) + sumf (S n) (fun r => u r * dlagrange x n r (x s)) * v s)) = u n * v n - u 0%nat * v 0%nat.
  Proof.
    assert (Hd := gl_distinct).
    set (U := fun t => sumf (S n) (fun r => u r * lagrange x n r t)). set (V := fun t => sumf (S n) (fun r => v r * lagrange x n r t)).
    set (U' := fun t => sumf (S n) (fun r => u r * dlagrange x n r t)). set (V' := fun t => sumf (S n) (fun r => v r * dlagrange x n r t)).
    assert (At : forall (a : nat -> R) s, (s <= n)%nat -> sumf (S n) (fun r => a r * lagrange x n r (x s)) = a s).
    { intros a s Hs. rewrite (sumf_ext _ _ (fun r => delta s r * a r)); [apply sumf_delta; lia|]. intros r Hr. rewrite (lagrange_delta x n Hd) by lia.
      unfold delta. rewrite (Nat.eqb_sym r s). ring. }
    assert (Dg : forall a : nat -> R, deg n (fun t => sumf (S n) (fun r => a r * lagrange x n r t))).
    { intros a. apply (deg_sum n (S n) (fun r t => a r * lagrange x n r t)). intros r Hr. apply deg_scal. apply deg_lagrange. lia. }
    assert (Dv : forall (a : nat -> R) t, derivable_pt_lim (fun t => sumf (S n) (fun r => a r * lagrange x n r t)) t (sumf (S n) (fun r => a r * dlagrange x n r t))).
    { intros a t. apply (sum_derivative (S n) (fun r t => a r * lagrange x n r t)). intros r _. apply (derivable_pt_lim_scal (lagrange x n r)). apply lagrange_derivative. }
    assert (E := exact_derivative (n + n) (fun t => U t * V t) (fun t => U' t * V t + U t * V' t) ltac:(lia) (deg_mult n n U V (Dg u) (Dg v))
      (fun t => derivable_pt_lim_mult U V t _ _ (Dv u t) (Dv v t))).
    rewrite <- (gl_first n x w HL), <- (gl_last n x w HL) in E. unfold U at 2 3, V at 2 3 in E. rewrite !At in E by lia. rewrite <- E. apply sumf_ext.
    intros s Hs. unfold U, V. rewrite !At by lia. unfold U', V'. ring.
  Qed.
  Lemma line_interpolant f t : deg n f -> derivable_pt_lim f t (sumf (S n) (fun r => f (x r) * dlagrange x n r t)).
  Proof.
    intros Hf. apply lim_ext with (f := fun t => sumf (S n) (fun r => f (x r) * lagrange x n r t)).
    - intros s. symmetry. apply (interpolation x n gl_distinct). exact Hf.
    - apply (sum_derivative (S n) (fun r t => f (x r) * lagrange x n r t)). intros r _. apply (derivable_pt_lim_scal (lagrange x n r)). apply lagrange_derivative.
  Qed.
  Lemma line_flat t : sumf (S n) (fun r => dlagrange x n r t) = 0.
  Proof.
    assert (A := line_interpolant (fun _ => 1) t (deg_const n 1)). assert (B := derivable_pt_lim_const 1 t).
    rewrite <- (lim_unique _ t _ _ A B). apply sumf_ext. intros r _. ring.
  Qed.
End Rule.

(** ** Lines of the box *)
Lemma sumf_bij N (p : nat -> nat) f : (forall i, (i < N)%nat -> (p i < N)%nat) -> (forall i j, (i < N)%nat -> (j < N)%nat -> p i = p j -> i = j) ->
  sumf N (fun i => f (p i)) = sumf N f.
Proof.
  intros Hp Hi. rewrite !sumf_suml. rewrite <- (suml_map f p). apply suml_perm. apply NoDup_Permutation_bis.
  - assert (A : forall l, NoDup l -> (forall i, In i l -> (i < N)%nat) -> NoDup (map p l)).
    { induction 1 as [|a l Na Nd IH]; intros H; cbn [map]; [constructor|]. constructor; [|apply IH; intros; apply H; right; assumption].
      intros X. apply in_map_iff in X. destruct X as (b & E & Hb). apply Na. rewrite <- (Hi b a); [exact Hb|apply H; right; exact Hb|apply H; left; reflexivity|exact E]. }
    apply A; [apply seq_NoDup|]. intros i Hin. apply in_seq in Hin. lia.
  - rewrite map_length. reflexivity.
  - intros b Hb. apply in_map_iff in Hb. destruct Hb as (i & <- & Hin). apply in_seq in Hin. apply in_seq. specialize (Hp i ltac:(lia)). lia.
Qed.

Definition unslot (D k r : nat) : nat := ((r + S k) mod D)%nat.
Lemma slot_facts D k e : (D = 2 \/ D = 3)%nat -> (k < D)%nat -> (e < D)%nat -> e <> k -> (slot D k e < D - 1)%nat /\ unslot D k (slot D k e) = e.
Proof.
  intros HD Hk He N. destruct HD as [->| ->].
  - destruct k as [|[|k]]; [| |lia]; (destruct e as [|[|e]]; [| |lia]); try congruence; cbv; lia.
  - destruct k as [|[|[|k]]]; [| | |lia]; (destruct e as [|[|[|e]]]; [| | |lia]); try congruence; cbv; lia.
Qed.
Lemma unslot_facts D k r : (D = 2 \/ D = 3)%nat -> (k < D)%nat -> (r < D - 1)%nat -> (unslot D k r < D)%nat /\ unslot D k r <> k /\ slot D k (unslot D k r) = r.
Proof.
  intros HD Hk Hr. destruct HD as [->| ->].
  - destruct k as [|[|k]]; [| |lia]; (destruct r as [|r]; [|lia]); cbv; lia.
  - destruct k as [|[|[|k]]]; [| | |lia]; (destruct r as [|[|r]]; [| |lia]); cbv; lia.
Qed.

Section Lines.
  Variables (m D k : nat).
  Hypotheses (Hm : (0 < m)%nat) (HD : (D = 2 \/ D = 3)%nat) (Hk : (k < D)%nat).
  Definition ins (s q : nat) : nat := number m D (fun e => if Nat.eqb e k then s else digit m (slot D k e) q).
  Lemma ins_small s q e : (s < m)%nat -> ((if Nat.eqb e k then s else digit m (slot D k e) q) < m)%nat.
  Proof. intros Hs. destruct (Nat.eqb e k); [exact Hs|]. apply digit_lt. exact Hm. Qed.
  Lemma ins_lt s q : (s < m)%nat -> (ins s q < m ^ D)%nat.
  Proof. intros Hs. apply number_lt. intros e _. apply ins_small. exact Hs. Qed.
  Lemma digit_ins s q e : (s < m)%nat -> (e < D)%nat -> digit m e (ins s q) = if Nat.eqb e k then s else digit m (slot D k e) q.
  Proof. intros Hs He. apply (digit_number m D (fun e => if Nat.eqb e k then s else digit m (slot D k e) q)); [|exact He]. intros d _. apply ins_small. exact Hs. Qed.
  Lemma ins_inj s s' q q' : (s < m)%nat -> (s' < m)%nat -> (q < m ^ (D - 1))%nat -> (q' < m ^ (D - 1))%nat -> ins s q = ins s' q' -> s = s' /\ q = q'.
  Proof.
    intros Hs Hs' Hq Hq' E. split.
    - assert (A := digit_ins s q k Hs Hk). assert (B := digit_ins s' q' k Hs' Hk). rewrite Nat.eqb_refl in A, B. rewrite E in A. congruence.
    - apply (digit_inj m (D - 1) q q' Hm Hq Hq'). intros r Hr. destruct (unslot_facts D k r HD Hk Hr) as (L & N & S).
      assert (A := digit_ins s q _ Hs L). assert (B := digit_ins s' q' _ Hs' L). destruct (Nat.eqb_spec (unslot D k r) k) as [X|_]; [congruence|].
      rewrite S in A, B. rewrite E in A. congruence.
  Qed.
  Lemma line_sum g : sumf (m ^ D)%nat g = sumf (m ^ (D - 1))%nat (fun q => sumf m (fun s => g (ins s q))).
  Proof.
    assert (EP : (m ^ D = m ^ (D - 1) * m)%nat) by (destruct HD as [->| ->]; cbn; ring).
    rewrite <- (sumf_bij (m ^ D) (fun t => ins (t mod m) (t / m)) g).
    - rewrite EP, sumf_mul_range. apply sumf_ext. intros q _. apply sumf_ext. intros s Hs.
      rewrite Nat.add_comm, Nat.mod_add, Nat.div_add, Nat.mod_small, Nat.div_small by lia. reflexivity.
    - intros t _. apply ins_lt. apply Nat.mod_upper_bound. lia.
    - intros t t' Ht Ht' E. rewrite EP in Ht, Ht'. apply ins_inj in E.
      + destruct E as [E1 E2]. rewrite (Nat.div_mod t m), (Nat.div_mod t' m) by lia. rewrite E1, E2. reflexivity.
      + apply Nat.mod_upper_bound. lia.
      + apply Nat.mod_upper_bound. lia.
      + apply Nat.div_lt_upper_bound; lia.
      + apply Nat.div_lt_upper_bound; lia.
  Qed.
  Lemma prod_ins A (B : nat -> R) : prodf D (fun e => if Nat.eqb e k then A else B e) = A * prodf D (fun e => if Nat.eqb e k then 1 else B e).
  Proof. clear HD. induction D as [|D' IH]; [lia|]. cbn [prodf]. destruct (Nat.eq_dec k D') as [->|N].
    - rewrite Nat.eqb_refl. rewrite (prodf_ext D' (fun e => if Nat.eqb e D' then A else B e) (fun e => if Nat.eqb e D' then 1 else B e)); [ring|].
      intros i Hi. destruct (Nat.eqb_spec i D'); [lia|reflexivity].
    - rewrite IH by lia. destruct (Nat.eqb_spec D' k); [lia|]. ring.
  Qed.
  (** Every number lies on a line. *)
  Lemma on_line i : (i < m ^ D)%nat -> exists s q, (s < m)%nat /\ (q < m ^ (D - 1))%nat /\ i = ins s q /\ s = digit m k i.
  Proof.
    intros Hi. exists (digit m k i), (number m (D - 1) (fun r => digit m (unslot D k r) i)).
    assert (Hs := digit_lt m k i Hm). assert (Hq : (number m (D - 1) (fun r => digit m (unslot D k r) i) < m ^ (D - 1))%nat) by (apply number_lt; intros; apply digit_lt; exact Hm).
    split; [exact Hs|]. split; [exact Hq|]. split; [|reflexivity]. apply (digit_inj m D); [exact Hm|exact Hi|apply ins_lt; exact Hs|].
    intros e He. rewrite digit_ins by assumption. destruct (Nat.eqb_spec e k) as [->|N]; [reflexivity|].
    destruct (slot_facts D k e HD Hk He N) as (L & U).
    rewrite (digit_number m (D - 1) (fun r => digit m (unslot D k r) i)); [rewrite U; reflexivity| |exact L]. intros; apply digit_lt; exact Hm.
  Qed.
End Lines.
