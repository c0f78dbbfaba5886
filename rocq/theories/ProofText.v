(** Lemmas about printing and reading numbers. *)
From Verif Require Import Prelude ModelText SpecText.
Open Scope R_scope.

Lemma int_part_is : forall x n, IZR n <= x < IZR n + 1 -> Int_part x = n.
Proof.
  intros x n H. unfold Int_part. assert (E : (n + 1)%Z = up x) by (apply tech_up; rewrite plus_IZR; lra). rewrite <- E. lia.
Qed.

Lemma int_part_bounds : forall x, IZR (Int_part x) <= x < IZR (Int_part x) + 1.
Proof. intros x. destruct (base_Int_part x). split; lra. Qed.

Lemma int_part_IZR : forall z, Int_part (IZR z) = z.
Proof. intros z. apply int_part_is. lra. Qed.

Lemma ln10_pos : 0 < ln 10.
Proof. rewrite <- ln_1. apply ln_increasing; lra. Qed.

Lemma ln_powerRZ10 : forall k, ln (powerRZ 10 k) = IZR k * ln 10.
Proof.
  intros [|p|p]; cbn [powerRZ].
  - rewrite ln_1. ring.
  - rewrite ln_pow by lra. rewrite INR_IPR. reflexivity.
  - rewrite ln_Rinv by (apply pow_lt; lra). rewrite ln_pow by lra. rewrite INR_IPR.
    change (IZR (Z.neg p)) with (- IPR p). ring.
Qed.

Lemma powerRZ10_pos : forall k, 0 < powerRZ 10 k.
Proof. intros k. apply powerRZ_lt. lra. Qed.

Lemma powerRZ10_add : forall a b, powerRZ 10 (a + b) = powerRZ 10 a * powerRZ 10 b.
Proof. intros. apply powerRZ_add. lra. Qed.

Lemma powerRZ10_le : forall a b, (a <= b)%Z -> powerRZ 10 a <= powerRZ 10 b.
Proof.
  intros a b H. destruct (Z.eq_dec a b) as [->|N]; [lra|].
  apply Rnot_lt_le. intros L.
  assert (X := ln_increasing _ _ (powerRZ10_pos b) L). rewrite !ln_powerRZ10 in X.
  assert (IZR a < IZR b) by (apply IZR_lt; lia). assert (Y := ln10_pos).
  assert (IZR a * ln 10 < IZR b * ln 10) by (apply Rmult_lt_compat_r; assumption). lra.
Qed.

Lemma powerRZ10_Z : forall k, (0 <= k)%Z -> powerRZ 10 k = IZR (10 ^ k).
Proof.
  intros k Hk. rewrite <- (Z2Nat.id k Hk). generalize (Z.to_nat k). intros n.
  rewrite <- pow_powerRZ.
  clear. induction n as [|n IH].
  - reflexivity.
  - rewrite Nat2Z.inj_succ, Z.pow_succ_r by lia. rewrite mult_IZR, <- IH. reflexivity.
Qed.

(** The exponent is the scientific one. *)
Lemma exponent_spec : forall x, x <> 0 -> powerRZ 10 (decimal_exponent x) <= Rabs x < powerRZ 10 (decimal_exponent x + 1).
Proof.
  intros x Hx. unfold decimal_exponent. set (e := Int_part (ln (Rabs x) / ln 10)).
  assert (Ha : 0 < Rabs x) by (apply Rabs_pos_lt; exact Hx). assert (L := ln10_pos).
  assert (B := int_part_bounds (ln (Rabs x) / ln 10)). fold e in B.
  assert (E : ln (Rabs x) = ln (Rabs x) / ln 10 * ln 10) by (field; lra).
  split.
  - apply Rnot_lt_le. intros C. assert (X := ln_increasing _ _ Ha C). rewrite ln_powerRZ10 in X.
    assert (IZR e * ln 10 <= ln (Rabs x) / ln 10 * ln 10) by (apply Rmult_le_compat_r; lra). lra.
  - apply ln_lt_inv; [exact Ha|apply powerRZ10_pos|]. rewrite ln_powerRZ10, plus_IZR, E. apply Rmult_lt_compat_r; lra.
Qed.

Lemma exponent_is : forall x e, powerRZ 10 e <= Rabs x < powerRZ 10 (e + 1) -> decimal_exponent x = e.
Proof.
  intros x e [H1 H2]. unfold decimal_exponent. assert (L := ln10_pos). assert (P := powerRZ10_pos e).
  apply int_part_is. split.
  - apply Rmult_le_reg_r with (ln 10); [exact L|]. unfold Rdiv. rewrite Rmult_assoc, Rinv_l, Rmult_1_r by lra.
    rewrite <- ln_powerRZ10. destruct (Req_dec (powerRZ 10 e) (Rabs x)) as [->|N]; [lra|]. left. apply ln_increasing; lra.
  - apply Rmult_lt_reg_r with (ln 10); [exact L|]. unfold Rdiv. rewrite Rmult_assoc, Rinv_l, Rmult_1_r by lra.
    replace ((IZR e + 1) * ln 10) with (IZR (e + 1) * ln 10) by (rewrite plus_IZR; ring).
    rewrite <- ln_powerRZ10. apply ln_increasing; lra.
Qed.

(** Printed to the nearest decimal. *)
Lemma print_is : forall n x e (m : Z), powerRZ 10 e <= Rabs x < powerRZ 10 (e + 1) ->
  IZR m - 1/2 <= x * powerRZ 10 (n - 1 - e) < IZR m + 1/2 -> print_digits n x = IZR m / powerRZ 10 (n - 1 - e).
Proof.
  intros n x e m He Hm. unfold print_digits.
  destruct (Req_EM_T x 0) as [->|Hx]. { rewrite Rabs_R0 in He. assert (P := powerRZ10_pos e). lra. }
  cbv zeta. rewrite (exponent_is x e He). rewrite (int_part_is _ m) by lra. reflexivity.
Qed.

Lemma print_0 : forall n, print_digits n 0 = 0.
Proof. intros n. unfold print_digits. destruct (Req_EM_T 0 0); [reflexivity|lra]. Qed.

Lemma print_decimal : forall n x, decimal n x -> print_digits n x = x.
Proof.
  intros n x (m & k & Hm & E). destruct (Req_dec x 0) as [->|Hx]; [apply print_0|].
  assert (S := exponent_spec x Hx). set (e := decimal_exponent x) in *.
  assert (Hn : (0 <= n)%Z). { destruct (Z_lt_le_dec n 0) as [L|L]; [|exact L]. exfalso. rewrite (Z.pow_neg_r 10 n L) in Hm. lia. }
  (* the exponent is below n + k *)
  assert (Hle : (e < n + k)%Z).
  { destruct (Z_lt_le_dec e (n + k)) as [L|L]; [exact L|exfalso].
    assert (A : Rabs x < powerRZ 10 (n + k)).
    { rewrite E, Rabs_mult, (Rabs_right (powerRZ 10 k)) by (left; apply powerRZ10_pos).
      rewrite powerRZ10_add. apply Rmult_lt_compat_r; [apply powerRZ10_pos|].
      rewrite (powerRZ10_Z n Hn), <- abs_IZR. apply IZR_lt. exact Hm. }
    assert (powerRZ 10 (n + k) <= powerRZ 10 e) by (apply powerRZ10_le; lia). lra. }
  assert (X : x * powerRZ 10 (n - 1 - e) = IZR (m * 10 ^ (n + k - 1 - e))).
  { rewrite mult_IZR, <- powerRZ10_Z by lia. rewrite E, Rmult_assoc, <- powerRZ10_add. do 2 f_equal. lia. }
  rewrite (print_is n x e (m * 10 ^ (n + k - 1 - e)) S) by (rewrite X; lra).
  rewrite <- X. field. assert (P := powerRZ10_pos (n - 1 - e)). lra.
Qed.

(** Relative accuracy: half a unit in the last digit. *)
Lemma print_accuracy : forall n x, Rabs (print_digits n x - x) <= 1/2 * powerRZ 10 (1 - n) * Rabs x.
Proof.
  intros n x. destruct (Req_dec x 0) as [->|Hx].
  { rewrite print_0, Rminus_0_r, Rabs_R0. lra. }
  assert (S := exponent_spec x Hx). unfold print_digits. destruct (Req_EM_T x 0) as [C|_]; [contradiction|]. cbv zeta.
  set (e := decimal_exponent x) in *. set (p := powerRZ 10 (n - 1 - e)). assert (P : 0 < p) by apply powerRZ10_pos.
  set (m := Int_part (x * p + 1/2)). assert (B := int_part_bounds (x * p + 1/2)). fold m in B.
  assert (E : IZR m / p - x = (IZR m - x * p) * / p) by (field; lra).
  rewrite E, Rabs_mult, (Rabs_right (/ p)) by (left; apply Rinv_0_lt_compat; exact P).
  assert (Hp : / p = powerRZ 10 (1 - n) * powerRZ 10 e).
  { unfold p. rewrite <- powerRZ10_add. rewrite <- powerRZ_neg'. f_equal. lia. }
  assert (A : Rabs (IZR m - x * p) <= 1/2) by (apply Rabs_le; lra).
  apply Rle_trans with (1/2 * / p).
  - apply Rmult_le_compat_r; [left; apply Rinv_0_lt_compat; exact P|exact A].
  - rewrite Hp, <- Rmult_assoc. apply Rmult_le_compat_l; [|exact (proj1 S)].
    assert (Q := powerRZ10_pos (1 - n)). lra.
Qed.

(** Rounding keeps bounds that are themselves decimals. *)
Lemma scaled_integer : forall n (b : R) e, (0 <= n)%Z -> decimal n b -> powerRZ 10 e <= Rabs b ->
  exists z, b * powerRZ 10 (n - 1 - e) = IZR z.
Proof.
  intros n b e Hn (m & k & Hm & E) He.
  assert (Hk : (0 <= k + (n - 1 - e))%Z).
  { destruct (Z_lt_le_dec (k + (n - 1 - e)) 0) as [L|L]; [exfalso|exact L].
    assert (A : Rabs b < powerRZ 10 (n + k)).
    { rewrite E, Rabs_mult, (Rabs_right (powerRZ 10 k)) by (left; apply powerRZ10_pos).
      rewrite powerRZ10_add. apply Rmult_lt_compat_r; [apply powerRZ10_pos|].
      rewrite powerRZ10_Z, <- abs_IZR by exact Hn. apply IZR_lt. exact Hm. }
    assert (B : powerRZ 10 (n + k) <= powerRZ 10 e) by (apply powerRZ10_le; lia). lra. }
  exists (m * 10 ^ (k + (n - 1 - e)))%Z. rewrite mult_IZR, <- powerRZ10_Z by exact Hk.
  rewrite powerRZ10_add, E. ring.
Qed.

Lemma print_ge : forall n b x, (1 <= n)%Z -> decimal n b -> b <= x -> b <= print_digits n x.
Proof.
  intros n b x Hn Hb Hx. destruct (Req_dec x 0) as [->|N]; [rewrite print_0; exact Hx|].
  assert (S := exponent_spec x N). unfold print_digits. destruct (Req_EM_T x 0) as [C|_]; [contradiction|]. cbv zeta.
  set (e := decimal_exponent x) in *. set (p := powerRZ 10 (n - 1 - e)).
  assert (P : 0 < p) by apply powerRZ10_pos.
  assert (B := int_part_bounds (x * p + 1/2)). set (m := Int_part (x * p + 1/2)) in *.
  apply Rmult_le_reg_r with p; [exact P|]. replace (IZR m / p * p) with (IZR m) by (field; lra).
  assert (K : forall z, b * p <= IZR z -> IZR z <= x * p -> b * p <= IZR m).
  { intros z H1 H2. apply Rle_trans with (IZR z); [exact H1|]. apply IZR_le.
    assert (IZR z < IZR (m + 1)) by (rewrite plus_IZR; lra). apply lt_IZR in H. lia. }
  destruct (Rle_dec (powerRZ 10 e) (Rabs b)) as [L|L].
  - destruct (scaled_integer n b e ltac:(lia) Hb L) as [z Z]. apply (K z); fold p in Z; rewrite <- Z; [lra|].
    apply Rmult_le_compat_r; lra.
  - apply Rnot_le_lt in L. apply (K (10 ^ (n - 1))%Z); rewrite <- powerRZ10_Z by lia;
      replace (n - 1)%Z with (e + (n - 1 - e))%Z by ring; rewrite powerRZ10_add; fold p; apply Rmult_le_compat_r; try lra.
    + apply Rle_trans with (Rabs b); [apply Rle_abs|lra].
    + destruct (Rcase_abs x) as [Q|Q]; [|rewrite Rabs_right in S; lra].
      rewrite (Rabs_left x) in S by exact Q. rewrite (Rabs_left b) in L by lra. lra.
Qed.

Lemma print_le : forall n b x, (1 <= n)%Z -> decimal n b -> x <= b -> print_digits n x <= b.
Proof.
  intros n b x Hn Hb Hx. destruct (Req_dec x 0) as [->|N]; [rewrite print_0; exact Hx|].
  assert (S := exponent_spec x N). unfold print_digits. destruct (Req_EM_T x 0) as [C|_]; [contradiction|]. cbv zeta.
  set (e := decimal_exponent x) in *. set (p := powerRZ 10 (n - 1 - e)).
  assert (P : 0 < p) by apply powerRZ10_pos.
  assert (B := int_part_bounds (x * p + 1/2)). set (m := Int_part (x * p + 1/2)) in *.
  apply Rmult_le_reg_r with p; [exact P|]. replace (IZR m / p * p) with (IZR m) by (field; lra).
  assert (K : forall z, IZR z <= b * p -> x * p <= IZR z -> IZR m <= b * p).
  { intros z H1 H2. apply Rle_trans with (IZR z); [|exact H1]. apply IZR_le.
    assert (IZR m < IZR (z + 1)) by (rewrite plus_IZR; lra). apply lt_IZR in H. lia. }
  destruct (Rle_dec (powerRZ 10 e) (Rabs b)) as [L|L].
  - destruct (scaled_integer n b e ltac:(lia) Hb L) as [z Z]. apply (K z); fold p in Z; rewrite <- Z; [lra|].
    apply Rmult_le_compat_r; lra.
  - apply Rnot_le_lt in L. apply (K (- 10 ^ (n - 1))%Z); rewrite opp_IZR, <- powerRZ10_Z by lia;
      replace (n - 1)%Z with (e + (n - 1 - e))%Z by ring; rewrite powerRZ10_add; fold p;
      rewrite Ropp_mult_distr_l; apply Rmult_le_compat_r; try lra.
    + assert (A := Rle_abs (- b)). rewrite Rabs_Ropp in A. lra.
    + destruct (Rcase_abs x) as [Q|Q]; [rewrite (Rabs_left x) in S by exact Q; lra|].
      rewrite (Rabs_right x) in S by exact Q. rewrite (Rabs_right b) in L by lra. lra.
Qed.

Lemma decimal_int : forall n z, (Z.abs z < 10 ^ n)%Z -> decimal n (IZR z).
Proof. intros n z H. exists z, 0%Z. split; [exact H|]. simpl. ring. Qed.

Lemma decimal_frac : forall n z k, (Z.abs z < 10 ^ n)%Z -> decimal n (IZR z / 10 ^ k).
Proof.
  intros n z k H. exists z, (- Z.of_nat k)%Z. split; [exact H|]. rewrite powerRZ_neg', <- pow_powerRZ. reflexivity.
Qed.
