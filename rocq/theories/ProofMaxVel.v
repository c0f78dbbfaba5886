(** Reported maximum particle velocity against the actual directions. *)
From Coq Require Import QArith Qreals.
From Verif Require Import Prelude StencilData ModelStencils SpecStencils BigSum ProofStencils ProofStencilMoments.
Open Scope R_scope.

Definition sqn (st : stencil) (i : nat) : R := sumf (st_D st) (fun a => st_e st i a * st_e st i a).

Lemma sqn_nonneg st i : 0 <= sqn st i.
Proof. apply sumf_nonneg. intros. nra. Qed.

Lemma norm_le st i m : 0 <= m -> sqn st i <= m * m -> dir_norm st i <= m.
Proof. intros Hm H. unfold dir_norm. fold (sqn st i). rewrite <- (sqrt_square m Hm). apply sqrt_le_1_alt, H. Qed.
Lemma norm_lt st i m : 0 <= m -> sqn st i < m * m -> dir_norm st i < m.
Proof. intros Hm H. unfold dir_norm. fold (sqn st i). rewrite <- (sqrt_square m Hm).
  apply sqrt_lt_1_alt. split; [apply sqn_nonneg | exact H]. Qed.
Lemma norm_gt st i m : 0 <= m -> m * m < sqn st i -> m < dir_norm st i.
Proof. intros Hm H. unfold dir_norm. fold (sqn st i). rewrite <- (sqrt_square m Hm).
  apply sqrt_lt_1_alt. split; [nra | exact H]. Qed.
Lemma norm_eq st i m : 0 <= m -> sqn st i = m * m -> dir_norm st i = m.
Proof. intros Hm H. unfold dir_norm. fold (sqn st i). rewrite H. apply sqrt_square, Hm. Qed.

Definition sqnQ (D : nat) (dir : list (list Q)) (i : nat) : Q :=
  fold_right Qplus 0%Q (map (fun a => Qmult (tblQ dir i a) (tblQ dir i a)) (seq 0 D)).

Lemma sumf_Q D (g : nat -> Q) : forall k f,
  (forall a, (a < D)%nat -> f a = Q2R (g (k + a)%nat)) ->
  sumf D f = Q2R (fold_right Qplus 0%Q (map g (seq k D))).
Proof.
  induction D as [|D IH]; intros k f H; [cbn; unfold Q2R; cbn; field|].
  rewrite sumf_S_first. cbn [seq map fold_right]. rewrite Q2R_plus.
  rewrite (IH (S k) (fun a => f (S a))).
  - rewrite (H 0%nat) by lia. rewrite Nat.add_0_r. reflexivity.
  - intros a Ha. rewrite H by lia. do 2 f_equal. lia.
Qed.

Lemma sqn_table st dir c i :
  (forall a, (a < st_D st)%nat -> st_e st i a = c * tbl dir i a) ->
  sqn st i = c * c * Q2R (sqnQ (st_D st) dir i).
Proof.
  intros H. unfold sqn, sqnQ.
  rewrite <- (sumf_Q (st_D st) (fun a => Qmult (tblQ dir i a) (tblQ dir i a)) 0
               (fun a => tbl dir i a * tbl dir i a)).
  - rewrite <- sumf_scal. apply sumf_ext. intros a Ha. rewrite H by exact Ha. ring.
  - intros a Ha. cbn [Nat.add]. rewrite Q2R_mult. reflexivity.
Qed.

Lemma maxvel_below_table st dir c i s :
  0 < s -> st_maxvel st = s * sqrt 2 -> (i < st_Q st)%nat -> 0 < c * c ->
  (forall a, (a < st_D st)%nat -> st_e st i a = c * tbl dir i a) ->
  2 * (s * s) < c * c * Q2R (sqnQ (st_D st) dir i) ->
  maxvel_spec st MaxVelBelow.
Proof.
  intros Hs Hm Hi Hc He Hlt. exists i. split; [exact Hi|].
  assert (H2 : sqrt 2 * sqrt 2 = 2) by (apply sqrt_sqrt; lra).
  apply norm_gt.
  - rewrite Hm. apply Rmult_le_pos; [lra|apply sqrt_pos].
  - rewrite Hm, (sqn_table st dir c i He).
    replace (s * sqrt 2 * (s * sqrt 2)) with (s * s * (sqrt 2 * sqrt 2)) by ring.
    rewrite H2. lra.
Qed.

Lemma maxvel_exact_table st dir s (K : Q) i0 :
  0 < s -> st_maxvel st = s * sqrt (Q2R K) -> 0 <= Q2R K ->
  (forall i a, st_e st i a = s * tbl dir i a) ->
  forallb (fun i => Qle_bool (sqnQ (st_D st) dir i) K) (seq 0 (st_Q st)) = true ->
  (i0 < st_Q st)%nat -> Qeq_bool (sqnQ (st_D st) dir i0) K = true ->
  maxvel_spec st MaxVelExact.
Proof.
  intros Hs Hm HK He Hall Hi0 Heq.
  assert (Hk : sqrt (Q2R K) * sqrt (Q2R K) = Q2R K) by (apply sqrt_sqrt; exact HK).
  assert (Hm0 : 0 <= st_maxvel st).
  { rewrite Hm. apply Rmult_le_pos; [lra|apply sqrt_pos]. }
  assert (Hmm : st_maxvel st * st_maxvel st = s * s * Q2R K).
  { rewrite Hm. transitivity (s * s * (sqrt (Q2R K) * sqrt (Q2R K))); [ring|]. rewrite Hk. reflexivity. }
  split.
  - intros i Hi. apply norm_le; [exact Hm0|].
    rewrite Hmm, (sqn_table st dir s i) by (intros; apply He).
    apply Rmult_le_compat_l; [nra|]. apply Qle_Rle, Qle_bool_iff.
    rewrite forallb_forall in Hall. apply Hall. apply in_seq. lia.
  - exists i0. split; [exact Hi0|]. apply norm_eq; [exact Hm0|].
    rewrite Hmm, (sqn_table st dir s i0) by (intros; apply He).
    f_equal. apply Qeq_eqR, Qeq_bool_iff, Heq.
Qed.

Lemma csq3 s : s / sqrt 3 * (s / sqrt 3) = s * s / 3.
Proof. symmetry. apply cs2_sqrt. lra. Qed.

Ltac below dir s c i :=
  apply (maxvel_below_table _ dir c i s);
  [ assumption | cbn [st_maxvel]; ring | cbn; lia | try rewrite csq3; nra | intros; try reflexivity
  | rewrite ?csq3; cbn [st_D] ].

Lemma Q2R_const q n d : Qnum q = n -> Qden q = d -> Q2R q = IZR n / IZR (Z.pos d).
Proof. intros <- <-. reflexivity. Qed.

Lemma sq_gt s q (k : Q) : 0 < s -> Qle_bool k q = true -> 6 < Q2R k -> 2 * (s * s) < s * s / 3 * Q2R q.
Proof.
  intros Hs H Hk. apply Qle_bool_iff, Qle_Rle in H. assert (0 < s * s) by nra.
  apply Rlt_le_trans with (s * s / 3 * Q2R k); [nra|]. apply Rmult_le_compat_l; nra.
Qed.

Lemma maxvel_ok t s : 0 < s -> maxvel_spec (stencil_of t s) (maxvel_class t).
Proof.
  intros Hs. assert (Hss : 0 < s * s) by nra.
  destruct t; cbn [maxvel_class stencil_of].
  - apply (maxvel_exact_table _ D2Q9_dir s (2#1)%Q 5); auto;
      [cbn [st_maxvel D2Q9]; do 2 f_equal; unfold Q2R; cbn; lra | unfold Q2R; cbn; lra | cbn; lia].
  - apply (maxvel_exact_table _ D3Q19_dir s (2#1)%Q 7); auto;
      [cbn [st_maxvel D3Q19]; do 2 f_equal; unfold Q2R; cbn; lra | unfold Q2R; cbn; lra | cbn; lia].
  - apply (maxvel_exact_table _ D3Q15_dir s (3#1)%Q 7); auto;
      [cbn [st_maxvel D3Q15]; do 2 f_equal; unfold Q2R; cbn; lra | unfold Q2R; cbn; lra | cbn; lia].
  - unfold D3Q27. below D3Q27_dir s s 19%nat.
    replace (Q2R (sqnQ 3 D3Q27_dir 19)) with 3; [nra|].
    transitivity (Q2R (3#1)); [unfold Q2R; cbn; lra|]. apply Qeq_eqR, Qeq_bool_iff. reflexivity.
  - unfold D2Q19H. below (swap2 D2Q19H_dir) s (s / sqrt 3) 17%nat.
    + cbn [st_e]. rewrite tbl_swap2_D2Q19H; [apply e_lit | lia | assumption].
    + apply (sq_gt s _ (14#1)%Q Hs); [vm_compute; reflexivity | unfold Q2R; cbn; lra].
  - unfold D2Q19V. below D2Q19V_dir s (s / sqrt 3) 17%nat; [apply e_lit|].
    apply (sq_gt s _ (14#1)%Q Hs); [vm_compute; reflexivity | unfold Q2R; cbn; lra].
  - unfold D2Q777. below D2Q777_dir s (s / sqrt 3) 406%nat; [apply e_lit|].
    apply (sq_gt s _ (38#1)%Q Hs); [vm_compute; reflexivity | unfold Q2R; cbn; lra].
  - (* D2Q25H *)
    exists 9%nat. split; [cbn; lia|].
    assert (H2 : sqrt 2 * sqrt 2 = 2) by (apply sqrt_sqrt; lra).
    pose proof sqrt10_bounds as Hb.
    apply norm_gt; [cbn [st_maxvel D2Q25H]; apply Rmult_le_pos; [apply sqrt_pos|lra]|].
    unfold sqn. cbn [st_maxvel D2Q25H st_D st_e sumf]. unfold D2Q25H_rows, tblR. cbn [nth].
    replace (0 + sqrt (5 + sqrt 10) * s / sqrt 3 * (sqrt (5 + sqrt 10) * s / sqrt 3) + 0 * 0)
      with (s / sqrt 3 * (s / sqrt 3) * (sqrt (5 + sqrt 10) * sqrt (5 + sqrt 10))) by (unfold Rdiv; ring).
    rewrite sqrt_sqrt by lra. rewrite csq3.
    replace (sqrt 2 * s * (sqrt 2 * s)) with (s * s * (sqrt 2 * sqrt 2)) by ring. rewrite H2. nra.
  - (* D3Q13 *)
    intros i Hi. assert (H2 : sqrt 2 * sqrt 2 = 2) by (apply sqrt_sqrt; lra).
    apply norm_lt; [cbn [st_maxvel D3Q13]; apply Rmult_le_pos; [lra|apply sqrt_pos]|].
    cbn [st_maxvel D3Q13].
    replace (s * sqrt 2 * (s * sqrt 2)) with (s * s * (sqrt 2 * sqrt 2)) by ring. rewrite H2.
    apply Rle_lt_trans with (5 * (s * s / 3)); [|lra].
    unfold sqn. cbn [D3Q13 st_D st_e sumf]. unfold D3Q13_rows, tblR.
    assert (Hp : s * (1 / sqrt 3) * sqrt ((5 + sqrt 5) / 2) * (s * (1 / sqrt 3) * sqrt ((5 + sqrt 5) / 2))
       = s * s / 3 * ((5 + sqrt 5) / 2)).
    { rewrite <- csq3. replace ((5 + sqrt 5) / 2) with (sqrt ((5 + sqrt 5) / 2) * sqrt ((5 + sqrt 5) / 2)) at 3.
      unfold Rdiv; ring. apply sqrt_sqrt. pose proof (sqrt_pos 5). lra. }
    assert (Hm : s * (1 / sqrt 3) * sqrt ((5 - sqrt 5) / 2) * (s * (1 / sqrt 3) * sqrt ((5 - sqrt 5) / 2))
       = s * s / 3 * ((5 - sqrt 5) / 2)).
    { rewrite <- csq3. replace ((5 - sqrt 5) / 2) with (sqrt ((5 - sqrt 5) / 2) * sqrt ((5 - sqrt 5) / 2)) at 3.
      unfold Rdiv; ring. apply sqrt_sqrt. pose proof sqrt5_lt3. lra. }
    set (p := s * (1 / sqrt 3) * sqrt ((5 + sqrt 5) / 2)) in *.
    set (m := s * (1 / sqrt 3) * sqrt ((5 - sqrt 5) / 2)) in *.
    clearbody p m. cbn in Hi.
    do 13 (destruct i as [|i]; [cbn [nth]; rewrite ?Rmult_opp_opp, ?Hp, ?Hm; nra|]). lia.
  - (* D3Q21 *)
    intros i Hi. assert (H2 : sqrt 2 * sqrt 2 = 2) by (apply sqrt_sqrt; lra).
    apply norm_lt; [cbn [st_maxvel D3Q21]; apply Rmult_le_pos; [lra|apply sqrt_pos]|].
    cbn [st_maxvel D3Q21].
    replace (s * sqrt 2 * (s * sqrt 2)) with (s * s * (sqrt 2 * sqrt 2)) by ring. rewrite H2.
    unfold sqn. cbn [D3Q21 st_D st_e sumf]. unfold D3Q21_rows, tblR.
    set (c := s / (774596669241483 / 1000000000000000) * (1 / sqrt 3)).
    assert (Hc : c * c = s * s / 3 * (10 ^ 15 / 774596669241483) ^ 2).
    { rewrite <- csq3. unfold c. field. apply sqrt3_neq0. }
    assert (Hr : sqrt 5 * sqrt 5 = 5) by (apply sqrt_sqrt; lra).
    assert (Hrp : 0 <= sqrt 5) by apply sqrt_pos.
    assert (Hm : c * 1 / ((1 + sqrt 5) / 2) = c * (sqrt 5 - 1) / 2).
    { field_simplify_eq; [|lra]. ring [Hr]. }
    rewrite Hm. clear Hm. clearbody c.
    assert (Hsum : c * c * 3 < s * s * 2) by (rewrite Hc; nra).
    assert (Hcp : 0 <= c * c) by nra.
    cbn in Hi.
    assert (E1 : forall x y z, x * x + y * y + z * z = 3 * (c * c) -> 0 + x * x + y * y + z * z < s * s * 2)
      by (intros; lra).
    destruct i as [|i]; [cbn [nth]; nra|].
    do 20 (destruct i as [|i]; [cbn [nth]; apply E1; field [Hr]|]). lia.
  - apply (maxvel_exact_table _ RD3Q27_dir s (2#1)%Q 7); auto;
      [cbn [st_maxvel RD3Q27]; do 2 f_equal; unfold Q2R; cbn; lra | unfold Q2R; cbn; lra | cbn; lia].
  - unfold D3Q45. below D3Q45_dir s (s / sqrt 3) 36%nat; [apply e_lit|].
    apply (sq_gt s _ (14#1)%Q Hs); [vm_compute; reflexivity | unfold Q2R; cbn; lra].
  - unfold D3Q77. below D3Q77_dir s (s / sqrt 3) 61%nat; [apply e_lit|].
    apply (sq_gt s _ (24#1)%Q Hs); [vm_compute; reflexivity | unfold Q2R; cbn; lra].
  - unfold D3V27. below D3V27_dir s (s / sqrt 3) 7%nat; [apply e_lit|].
    apply (sq_gt s _ (19#1)%Q Hs); [vm_compute; reflexivity | unfold Q2R; cbn; lra].
Qed.

Lemma maxvel_refuted :
  exists (t : StencilType) (s : R), 0 < s /\
    exists i, (i < st_Q (stencil_of t s))%nat /\ st_maxvel (stencil_of t s) < dir_norm (stencil_of t s) i.
Proof.
  exists Stencil_D3Q27, 1. split; [lra|].
  exact (maxvel_ok Stencil_D3Q27 1 Rlt_0_1).
Qed.
