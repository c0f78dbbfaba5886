(** Spectral filter: bilinear and trilinear elements with the trapezoidal rule. *)
From Verif Require Import Prelude BigSum ModelFilter SpecFilter ProofFilter ProofFilter2.
Local Open Scope R_scope.

Lemma sqrt3 : sqrt 3 * sqrt 3 = 3. Proof. apply sqrt_sqrt; lra. Qed.
Lemma sqrt3_pos : 0 < sqrt 3. Proof. apply sqrt_lt_R0; lra. Qed.

(** Value of a one-dimensional polynomial at a node. *)
Definition node_value (c : R) (d : nat) (b : bool) : R :=
  match d with O => 1 | 1%nat => if b then c else - c | _ => 0 end.
Lemma node_value_ok d (b : bool) : linear_legendre d (if b then 1 else 0) = node_value (sqrt 3) d b.
Proof. destruct d as [|[|d]], b; cbn; ring. Qed.

Ltac cases8 i := destruct i as [|[|[|[|[|[|[|[|i]]]]]]]]; [| | | | | | | |exfalso; cbn in *; lia].
Ltac cases4 i := destruct i as [|[|[|[|i]]]]; [| | | |exfalso; cbn in *; lia].

Lemma inr4 : INR (2 ^ 2) = 4. Proof. cbn. ring. Qed.
Lemma inr8 : INR (2 ^ 3) = 8. Proof. cbn. ring. Qed.

Ltac reduce := unfold delta; cbn [node_value Nat.div Nat.divmod fst snd Nat.modulo Nat.sub Nat.testbit Nat.odd Nat.even Nat.div2 negb Nat.eqb].

(** *** Two dimensions *)
Definition table2 (c : R) (k q : nat) : R := node_value c (k / 2) (Nat.testbit q 0) * node_value c (k mod 2) (Nat.testbit q 1).
Lemma basis_2 k q : basis linear_legendre 2 1 k (qpoint (trapezoid 2) q) = table2 (sqrt 3) k q.
Proof. unfold basis. rewrite degrees_2. cbn [mode]. cbn [trapezoid qpoint]. rewrite !node_value_ok. unfold table2. change (1 + 1)%nat with 2%nat. ring. Qed.

Definition size2 (c : R) (k : nat) : R := match k with O => 1 | 3%nat => c * c * (c * c) | _ => c * c end.

Lemma shape_2 i q : (i < 4)%nat -> (q < 4)%nat -> linear_shape 2 i (qpoint (trapezoid 2) q) = delta i q.
Proof. intros Hi Hq. cases4 i; cases4 q; cbn; ring. Qed.

Lemma gram_2 k i : (k < 4)%nat -> (i < 4)%nat ->
  gram (trapezoid 2) (basis linear_legendre 2 1) (basis linear_legendre 2 1) k i = delta k i * size2 (sqrt 3) k.
Proof.
  intros Hk Hi. unfold gram, integral. change (qn (trapezoid 2)) with 4%nat. cbn [sumf]. rewrite !basis_2.
  unfold trapezoid, qweight. rewrite inr4.
  generalize (sqrt 3). intros c. cases4 k; cases4 i; unfold table2, size2; reduce; field.
Qed.
Lemma gram_shape_2 k i : (k < 4)%nat -> (i < 4)%nat ->
  gram (trapezoid 2) (basis linear_legendre 2 1) (linear_shape 2) k i = / 4 * table2 (sqrt 3) k i.
Proof.
  intros Hk Hi. unfold gram, integral. change (qn (trapezoid 2)) with 4%nat. cbn [sumf]. rewrite !basis_2, !shape_2 by lia.
  unfold trapezoid, qweight. rewrite inr4.
  generalize (sqrt 3). intros c. cases4 i; reduce; field.
Qed.

Lemma resolved_2 : resolved 2 1 (trapezoid 2) linear_legendre (linear_shape 2).
Proof.
  assert (P := sqrt3_pos). split.
  - exists (fun i j => delta i j / size2 (sqrt 3) i). change (Nat.pow (1 + 1) 2) with 4%nat. intros i j Hi Hj.
    cbn [sumf]. rewrite !gram_2 by lia. revert P. generalize (sqrt 3). intros c P.
    cases4 i; cases4 j; unfold table2, size2; reduce; split; field; lra.
  - exists (fun i j => table2 (sqrt 3) j i / size2 (sqrt 3) j). change (Nat.pow (1 + 1) 2) with 4%nat. intros i j Hi Hj.
    cbn [sumf]. rewrite !gram_shape_2 by lia. revert P. generalize (sqrt 3). intros c P.
    cases4 i; cases4 j; unfold table2, size2; reduce; split; field; lra.
Qed.

Lemma mean_2 : mean_mode 2 1 (trapezoid 2) linear_legendre.
Proof.
  exists 1. split; [lra|]. split; [reflexivity|]. intros i Hi. change (Nat.pow (1 + 1) 2) with 4%nat in Hi.
  unfold integral. change (qn (trapezoid 2)) with 4%nat. cbn [sumf]. rewrite !basis_2.
  unfold trapezoid, qweight. rewrite inr4.
  generalize (sqrt 3). intros c. cases4 i; [lia| | |]; unfold table2; reduce; field.
Qed.

(** *** Three dimensions *)
Definition table3 (c : R) (k q : nat) : R :=
  node_value c (k / 4) (Nat.testbit q 0) * node_value c ((k mod 4) / 2) (Nat.testbit q 1) * node_value c (k mod 2) (Nat.testbit q 2).
Lemma basis_3 k q : basis linear_legendre 3 1 k (qpoint (trapezoid 3) q) = table3 (sqrt 3) k q.
Proof. unfold basis. rewrite degrees_3. cbn [mode]. cbn [trapezoid qpoint]. rewrite !node_value_ok. unfold table3.
  change ((1 + 1) * (1 + 1))%nat with 4%nat. change (1 + 1)%nat with 2%nat. ring. Qed.

Definition size3 (c : R) (k : nat) : R :=
  match k with O => 1 | 1%nat | 2%nat | 4%nat => c * c | 7%nat => c * c * (c * c) * (c * c) | _ => c * c * (c * c) end.

Lemma shape_3 i q : (i < 8)%nat -> (q < 8)%nat -> linear_shape 3 i (qpoint (trapezoid 3) q) = delta i q.
Proof. intros Hi Hq. cases8 i; cases8 q; cbn; ring. Qed.

Lemma gram_3 k i : (k < 8)%nat -> (i < 8)%nat ->
  gram (trapezoid 3) (basis linear_legendre 3 1) (basis linear_legendre 3 1) k i = delta k i * size3 (sqrt 3) k.
Proof.
  intros Hk Hi. unfold gram, integral. change (qn (trapezoid 3)) with 8%nat. cbn [sumf]. rewrite !basis_3.
  unfold trapezoid, qweight. rewrite inr8.
  generalize (sqrt 3). intros c. cases8 k; cases8 i; unfold table3, size3; reduce; field.
Qed.
Lemma gram_shape_3 k i : (k < 8)%nat -> (i < 8)%nat ->
  gram (trapezoid 3) (basis linear_legendre 3 1) (linear_shape 3) k i = / 8 * table3 (sqrt 3) k i.
Proof.
  intros Hk Hi. unfold gram, integral. change (qn (trapezoid 3)) with 8%nat. cbn [sumf]. rewrite !basis_3, !shape_3 by lia.
  unfold trapezoid, qweight. rewrite inr8.
  generalize (sqrt 3). intros c. cases8 i; reduce; field.
Qed.

Lemma resolved_3 : resolved 3 1 (trapezoid 3) linear_legendre (linear_shape 3).
Proof.
  assert (P := sqrt3_pos). split.
  - exists (fun i j => delta i j / size3 (sqrt 3) i). change (Nat.pow (1 + 1) 3) with 8%nat. intros i j Hi Hj.
    cbn [sumf]. rewrite !gram_3 by lia. revert P. generalize (sqrt 3). intros c P.
    cases8 i; cases8 j; unfold table3, size3; reduce; split; field; lra.
  - exists (fun i j => table3 (sqrt 3) j i / size3 (sqrt 3) j). change (Nat.pow (1 + 1) 3) with 8%nat. intros i j Hi Hj.
    cbn [sumf]. rewrite !gram_shape_3 by lia. revert P. generalize (sqrt 3). intros c P.
    cases8 i; cases8 j; unfold table3, size3; reduce; split; field; lra.
Qed.

Lemma mean_3 : mean_mode 3 1 (trapezoid 3) linear_legendre.
Proof.
  exists 1. split; [lra|]. split; [reflexivity|]. intros i Hi. change (Nat.pow (1 + 1) 3) with 8%nat in Hi.
  unfold integral. change (qn (trapezoid 3)) with 8%nat. cbn [sumf]. rewrite !basis_3.
  unfold trapezoid, qweight. rewrite inr8.
  generalize (sqrt 3). intros c. cases8 i; [lia| | | | | | |]; unfold table3; reduce; field.
Qed.

(** ** Refutations *)
Definition exp_linear (dim : nat) (alpha s : R) (Nc : nat) (by_sum : bool) : (nat -> R) -> nat -> R :=
  exp_cell linear_legendre (linear_shape dim) (qn (trapezoid dim)) (qpoint (trapezoid dim)) (qweight (trapezoid dim))
    true_inverse alpha s Nc by_sum dim 1.

Lemma one_cell cf n x k :
  (forall f g, (forall k, (k < n)%nat -> f k = g k) -> forall i, cf f i = cf g i) -> (k < n)%nat ->
  applyFilter cf [List.seq 0 n] x k = cf x k.
Proof.
  intros Hext Hk.
  assert (E := apply_cell cf n [List.seq 0 n] x (List.seq 0 n) Hext).
  specialize (E ltac:(cbn [concat]; rewrite app_nil_r; apply seq_NoDup) (or_introl eq_refl) (seq_length n 0) k Hk).
  rewrite (seq_nth 0%nat 0%nat Hk) in E. cbn [plus] in E. rewrite E. apply Hext. intros j Hj. rewrite seq_nth by assumption. reflexivity.
Qed.

Lemma wrong_exp k Nc by_sum : (k < 8)%nat ->
  damping 1 1 Nc (highest by_sum 3 1) (code_degree by_sum 3 1 k) <> damping 1 1 Nc (highest by_sum 3 1) (counted by_sum (degrees_of 3 1 k)) ->
  exists x g, coefficients 8 (trapezoid 3) (linear_shape 3) (basis linear_legendre 3 1) x g /\
   ~ coefficients 8 (trapezoid 3) (linear_shape 3) (basis linear_legendre 3 1)
       (applyFilter (exp_linear 3 1 1 Nc by_sum) [List.seq 0 8] x)
       (fun i => damping 1 1 Nc (highest by_sum 3 1) (counted by_sum (degrees_of 3 1 i)) * g i).
Proof.
  intros Hk Hne.
  destruct (wrong_factor linear_legendre (linear_shape 3) (trapezoid 3) true_inverse 3 1
    (fun i => damping 1 1 Nc (highest by_sum 3 1) (code_degree by_sum 3 1 i))
    (fun i => damping 1 1 Nc (highest by_sum 3 1) (counted by_sum (degrees_of 3 1 i))) k) as (f & g & C & N).
  - right; right; reflexivity.
  - exact true_inverse_inverts.
  - exact resolved_3.
  - exact Hk.
  - exact Hne.
  - exists f, g. split; [exact C|]. apply N. intros i Hi. rewrite one_cell.
    + unfold exp_linear. rewrite exp_core. reflexivity.
    + intros a b E j. apply (cf_ext linear_legendre (linear_shape 3) (trapezoid 3) true_inverse 3 1). exact E.
    + exact Hi.
Qed.

(** Mode (0,1,0) is not damped. *)
Lemma wrong_max : exists x g, coefficients 8 (trapezoid 3) (linear_shape 3) (basis linear_legendre 3 1) x g /\
   ~ coefficients 8 (trapezoid 3) (linear_shape 3) (basis linear_legendre 3 1)
       (applyFilter (exp_linear 3 1 1 1 false) [List.seq 0 8] x)
       (fun i => damping 1 1 1 (highest false 3 1) (counted false (degrees_of 3 1 i)) * g i).
Proof.
  apply (wrong_exp 2); [lia|]. change (code_degree false 3 1 2) with 0%nat. change (counted false (degrees_of 3 1 2)) with 1%nat.
  rewrite damping_below by lia. assert (D := damping_strict 1 1 1 (highest false 3 1) 1). specialize (D ltac:(lra) ltac:(lia)). lra.
Qed.
(** Mode (0,0,1) lies below the cut-off but is damped. *)
Lemma wrong_sum : exists x g, coefficients 8 (trapezoid 3) (linear_shape 3) (basis linear_legendre 3 1) x g /\
   ~ coefficients 8 (trapezoid 3) (linear_shape 3) (basis linear_legendre 3 1)
       (applyFilter (exp_linear 3 1 1 2 true) [List.seq 0 8] x)
       (fun i => damping 1 1 2 (highest true 3 1) (counted true (degrees_of 3 1 i)) * g i).
Proof.
  apply (wrong_exp 1); [lia|]. change (code_degree true 3 1 1) with 2%nat. change (counted true (degrees_of 3 1 1)) with 1%nat.
  rewrite (damping_below _ _ _ _ 1) by lia. assert (D := damping_strict 1 1 2 (highest true 3 1) 2). specialize (D ltac:(lra) ltac:(lia)). lra.
Qed.

Lemma wrong_new : exists f g h,
  coefficients 8 (trapezoid 3) (linear_shape 3) (basis linear_legendre 3 1) f g /\
  new_cell linear_legendre (linear_shape 3) (qn (trapezoid 3)) (qpoint (trapezoid 3)) (qweight (trapezoid 3))
    true_inverse 1 1 3 1 f = Some h /\
  ~ coefficients 8 (trapezoid 3) (linear_shape 3) (basis linear_legendre 3 1) h
      (fun i => damping_new 1 1 3 (total_degree (degrees_of 3 1 i)) * g i).
Proof.
  destruct (wrong_factor linear_legendre (linear_shape 3) (trapezoid 3) true_inverse 3 1
    (fun i => damping_new 1 1 3 (new_degree 3 1 i))
    (fun i => damping_new 1 1 3 (total_degree (degrees_of 3 1 i))) 4) as (f & g & C & N).
  - right; right; reflexivity.
  - exact true_inverse_inverts.
  - exact resolved_3.
  - cbn. lia.
  - change (new_degree 3 1 4) with 3%nat. change (total_degree (degrees_of 3 1 4)) with 1%nat.
    unfold damping_new. cbn [Nat.eqb]. intros E. apply exp_inv in E.
    assert (X : INR 1 / INR 3 = / 3) by (cbn; field). assert (Y : INR 3 / INR 3 = 1) by (cbn; field).
    rewrite X, Y, !Rpower_1 in E by lra. lra.
  - destruct (new_cell_core linear_legendre (linear_shape 3) (trapezoid 3) true_inverse 3 1 1 1
      (or_intror (or_intror eq_refl)) ltac:(lia) ltac:(lra) f) as (h & E & H).
    exists f, g, h. split; [exact C|]. split; [exact E|]. apply N. intros i _. apply H.
Qed.

(** *** Shared degrees of freedom *)
Lemma coefficients_inj leg shape q inv dim p f f' g :
  dim123 dim -> inverts inv -> resolved dim p q leg shape ->
  coefficients (modes dim p) q shape (basis leg dim p) f g -> coefficients (modes dim p) q shape (basis leg dim p) f' g ->
  forall k, (k < modes dim p)%nat -> f k = f' k.
Proof.
  intros Hd Hi Hr C C' k Hk.
  rewrite (coefficients_iff leg shape q inv dim p Hd Hi Hr) in C, C'.
  rewrite <- (mv_inverse _ _ _ f k (inverse_sym _ _ _ (To_inv leg shape q inv dim p Hd Hi Hr)) Hk).
  rewrite <- (mv_inverse _ _ _ f' k (inverse_sym _ _ _ (To_inv leg shape q inv dim p Hd Hi Hr)) Hk).
  apply mv_ext. intros j Hj. rewrite C, C' by assumption. reflexivity.
Qed.

Lemma coefficients_interp n q shape psi f g :
  (forall a, (a < qn q)%nat -> expansion n shape f (qpoint q a) = expansion n psi g (qpoint q a)) ->
  coefficients n q shape psi f g.
Proof. intros H k _. apply sumf_ext. intros a Ha. rewrite H by assumption. reflexivity. Qed.

(** Filtering the values (a, b, a, b) of a bilinear cell. *)
Lemma filtered_2 a b : let s := exp (-1) in forall k, (k < 4)%nat ->
  exp_linear 2 1 1 1 false (fun k => if Nat.even k then a else b) k
  = if Nat.even k then (a + b) / 2 - s * (b - a) / 2 else (a + b) / 2 + s * (b - a) / 2.
Proof.
  intros s k Hk.
  assert (Hd : dim123 2) by (right; left; reflexivity).
  set (g := fun i => match i with O => (a + b) / 2 | 2%nat => (b - a) / (2 * sqrt 3) | _ => 0 end).
  assert (P := sqrt3_pos).
  assert (C : coefficients 4 (trapezoid 2) (linear_shape 2) (basis linear_legendre 2 1) (fun k => if Nat.even k then a else b) g).
  { apply coefficients_interp. intros q Hq. unfold expansion. cbn [sumf]. rewrite !basis_2.
    change (qn (trapezoid 2)) with 4%nat in Hq. rewrite !shape_2 by lia. unfold g. revert P. generalize (sqrt 3). intros c P.
    cases4 q; unfold table2; reduce; field; lra. }
  unfold exp_linear. rewrite exp_core.
  refine (coefficients_inj linear_legendre (linear_shape 2) (trapezoid 2) true_inverse 2 1 _
    (fun k => if Nat.even k then (a + b) / 2 - s * (b - a) / 2 else (a + b) / 2 + s * (b - a) / 2) _
    Hd true_inverse_inverts resolved_2
    (core_coefficients linear_legendre (linear_shape 2) (trapezoid 2) true_inverse 2 1 Hd true_inverse_inverts resolved_2 _ _ _ C) _ k Hk).
  apply coefficients_interp. intros q Hq. unfold expansion. change (modes 2 1) with 4%nat. cbn [sumf]. rewrite !basis_2.
  change (qn (trapezoid 2)) with 4%nat in Hq. rewrite !shape_2 by lia.
  change (code_degree false 2 1 0) with 0%nat. change (code_degree false 2 1 1) with 1%nat.
  change (code_degree false 2 1 2) with 1%nat. change (code_degree false 2 1 3) with 1%nat. change (highest false 2 1) with 1%nat.
  rewrite (damping_below _ _ 1 1 0) by lia. rewrite damping_last by lia.
  replace (exp (Ropp 1)) with s by (unfold s; f_equal; lra).
  unfold g. revert P. generalize (sqrt 3). intros c P. cases4 q; unfold table2; reduce; field; lra.
Qed.

Lemma shared_mean : exists cells x c, In c cells /\ (forall c, In c cells -> NoDup c /\ length c = 4%nat) /\
  integral (trapezoid 2) (expansion 4 (linear_shape 2) (fun k => applyFilter (exp_linear 2 1 1 1 false) cells x (nth k c 0%nat)))
  <> integral (trapezoid 2) (expansion 4 (linear_shape 2) (fun k => x (nth k c 0%nat))).
Proof.
  exists [[0;1;2;3]; [1;4;3;5]]%nat, (fun d => if Nat.leb 4 d then 1 else 0), [0;1;2;3]%nat.
  split; [left; reflexivity|]. split.
  { intros c [<-|[<-|[]]]; (split; [|reflexivity]); repeat constructor; cbn; lia. }
  set (x := fun d : nat => if Nat.leb 4 d then 1 else 0). set (cf := exp_linear 2 1 1 1 false).
  assert (Hext : forall f g, (forall k, (k < 4)%nat -> f k = g k) -> forall i, cf f i = cf g i)
    by (intros f g E i; apply (cf_ext linear_legendre (linear_shape 2) (trapezoid 2) true_inverse 2 1); exact E).
  set (v1 := cf (fun k => x (nth k [0;1;2;3]%nat 0%nat))).
  assert (V1 : forall k, (k < 4)%nat -> v1 k = 0).
  { intros k Hk. unfold v1. rewrite (Hext _ (fun k => if Nat.even k then 0 else 0)).
    - unfold cf. rewrite filtered_2 by assumption. destruct (Nat.even k); lra.
    - intros j Hj. cases4 j; reflexivity. }
  set (y := write [0;1;2;3]%nat v1 x).
  set (v2 := cf (fun k => y (nth k [1;4;3;5]%nat 0%nat))).
  assert (V2 : forall k, (k < 4)%nat -> v2 k = if Nat.even k then (0 + 1) / 2 - exp (-1) * (1 - 0) / 2 else (0 + 1) / 2 + exp (-1) * (1 - 0) / 2).
  { intros k Hk. unfold v2. rewrite (Hext _ (fun k => if Nat.even k then 0 else 1)).
    - unfold cf. rewrite filtered_2 by assumption. reflexivity.
    - intros j Hj. assert (A := V1 1%nat ltac:(lia)). assert (B := V1 3%nat ltac:(lia)).
      cases4 j; unfold y, write; cbn; [exact A|reflexivity|exact B|reflexivity]. }
  assert (E : forall u, integral (trapezoid 2) (expansion 4 (linear_shape 2) u) = / 4 * (u 0%nat + u 1%nat + u 2%nat + u 3%nat)).
  { intros u. unfold integral, expansion. change (qn (trapezoid 2)) with 4%nat. cbn [sumf]. rewrite !shape_2 by lia.
    unfold trapezoid, qweight. rewrite inr4. reduce. field. }
  rewrite !E. unfold applyFilter. cbn [fold_left]. fold cf. fold v1. fold y. fold v2.
  assert (W : forall d, write [1;4;3;5]%nat v2 y d = match d with 0%nat => v1 0%nat | 1%nat => v2 0%nat | 2%nat => v1 2%nat | 3%nat => v2 2%nat | _ => write [1;4;3;5]%nat v2 y d end)
    by (intros [|[|[|[|d]]]]; reflexivity).
  cbn [nth]. rewrite (W 0%nat), (W 1%nat), (W 2%nat), (W 3%nat), (V1 0%nat), (V1 2%nat), (V2 0%nat), (V2 2%nat) by lia.
  unfold x. cbn [Nat.leb Nat.even].
  assert (L : exp (-1) < 1) by (rewrite <- exp_0; apply exp_increasing; lra). lra.
Qed.
