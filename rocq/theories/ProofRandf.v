(** The random numbers of the synthetic turbulence. *)
From Coq Require Import Znumtheory.
From Verif Require Import Prelude ModelTurbChannel SpecTurbChannel.
Local Open Scope Z_scope.

Lemma lehmer_S : forall n s, lehmer (S n) s = (16807 * lehmer n s) mod 2147483647.
Proof.
  intros n s. unfold lehmer. rewrite Nat2Z.inj_succ, Z.pow_succ_r by lia.
  rewrite <- Z.mul_assoc. rewrite Z.mul_mod_idemp_r by lia. reflexivity.
Qed.
Lemma lehmer_0 : forall s, 1 <= s <= 2147483646 -> lehmer 0 s = s.
Proof. intros s H. unfold lehmer. change (16807 ^ Z.of_nat 0) with 1. rewrite Z.mul_1_l. apply Z.mod_small. lia. Qed.

Lemma prime_to : rel_prime 2147483647 16807.
Proof. apply Zgcd_1_rel_prime. reflexivity. Qed.
Lemma step_pos : forall s, 1 <= s <= 2147483646 -> 1 <= (16807 * s) mod 2147483647 <= 2147483646.
Proof.
  intros s H. pose proof (Z.mod_pos_bound (16807 * s) 2147483647 ltac:(lia)) as B.
  assert (N : (16807 * s) mod 2147483647 <> 0).
  { intros E. apply Z.mod_divide in E; [|lia].
    apply Gauss in E; [|apply prime_to]. destruct E as [q E]. nia. }
  lia.
Qed.
Lemma lehmer_pos : forall n s, 1 <= s <= 2147483646 -> 1 <= lehmer n s <= 2147483646.
Proof.
  induction n; intros s H.
  - rewrite lehmer_0; assumption.
  - rewrite lehmer_S. apply step_pos. apply IHn, H.
Qed.
Lemma lehmer_shift : forall n s, lehmer n ((16807 * s) mod 2147483647) = lehmer (S n) s.
Proof.
  intros n s. unfold lehmer. rewrite Z.mul_mod_idemp_r by lia. rewrite Nat2Z.inj_succ, Z.pow_succ_r by lia.
  f_equal. ring.
Qed.

Lemma int32_ok : forall z, -2147483648 <= z <= 2147483647 -> int32 z = Ok z.
Proof.
  intros z H. unfold int32.
  replace (-2147483648 <=? z) with true by (symmetry; apply Z.leb_le; lia).
  replace (z <=? 2147483647) with true by (symmetry; apply Z.leb_le; lia). reflexivity.
Qed.

Lemma schrage_ok : forall s, 1 <= s <= 2147483646 ->
  exists r, schrage s = Ok r /\ -2147483647 < r < 2147483647 /\
    (if r <=? 0 then r + 2147483647 else r) = (16807 * s) mod 2147483647 /\ r <> 0.
Proof.
  intros s H. unfold schrage, iq, ia, ir. cbv zeta.
  rewrite (Z.quot_div_nonneg s 127773) by lia.
  pose proof (Z.div_mod s 127773 ltac:(lia)) as E.
  pose proof (Z.mod_pos_bound s 127773 ltac:(lia)) as B.
  set (q := s / 127773) in *. set (b := s mod 127773) in *. clearbody q b.
  assert (Q : 0 <= q <= 16807) by lia.
  rewrite (int32_ok (q * 127773)) by lia. cbn [obind].
  rewrite (int32_ok (s - q * 127773)) by lia. cbn [obind].
  rewrite (int32_ok (16807 * (s - q * 127773))) by lia. cbn [obind].
  rewrite (int32_ok (2836 * q)) by lia. cbn [obind].
  rewrite int32_ok by lia.
  exists (16807 * (s - q * 127773) - 2836 * q). split; [reflexivity|].
  split; [lia|].
  assert (D : 16807 * (s - q * 127773) - 2836 * q = 16807 * s + (- q) * 2147483647) by ring.
  assert (N : 16807 * (s - q * 127773) - 2836 * q <> 0).
  { intros Z0. pose proof (step_pos s H) as P. rewrite D in Z0.
    assert (X : 16807 * s = q * 2147483647) by lia. rewrite X in P. rewrite Z_mod_mult in P. lia. }
  split; [|exact N].
  pose proof (step_pos s H) as P.
  destruct (Z.leb_spec (16807 * (s - q * 127773) - 2836 * q) 0) as [L|L].
  - rewrite D. apply Z.mod_unique with (q := q - 1); lia.
  - rewrite D. apply Z.mod_unique with (q := q); lia.
Qed.

Lemma fill_step : forall A (K : Z -> outcome A) s, 1 <= s <= 2147483646 ->
  obind (schrage s) (fun r => obind (if (r <? 0)%Z then int32 (r + im) else Ok r) K) = K ((16807 * s) mod 2147483647).
Proof.
  intros A K s H. destruct (schrage_ok s H) as (r & E & B & M & N). rewrite E. cbn [obind]. unfold im.
  destruct (Z.leb_spec r 0) as [L|L].
  - replace (r <? 0) with true by (symmetry; apply Z.ltb_lt; lia). rewrite int32_ok by lia. rewrite M. reflexivity.
  - replace (r <? 0) with false by (symmetry; apply Z.ltb_ge; lia). rewrite M. reflexivity.
Qed.
Lemma draw_step : forall A (K : Z -> outcome A) s, 1 <= s <= 2147483646 ->
  obind (schrage s) (fun r => obind (if (r <=? 0)%Z then int32 (r + im) else Ok r) K) = K ((16807 * s) mod 2147483647).
Proof.
  intros A K s H. destruct (schrage_ok s H) as (r & E & B & M & N). rewrite E. cbn [obind]. unfold im.
  destruct (Z.leb_spec r 0) as [L|L].
  - rewrite int32_ok by lia. rewrite M. reflexivity.
  - rewrite M. reflexivity.
Qed.

Lemma put_ok : forall A (l : list A) i v, (i < length l)%nat ->
  exists l', put l i v = Ok l' /\ length l' = length l /\ forall x, In x l' -> x = v \/ In x l.
Proof.
  induction l as [|a l IH]; intros i v H; [simpl in H; lia|].
  destruct i as [|i]; cbn [put].
  - exists (v :: l). split; [reflexivity|]. split; [reflexivity|]. intros x [Hx|Hx]; [left; congruence|right; right; exact Hx].
  - destruct (IH i v) as (l' & E & L & I); [simpl in H; lia|]. rewrite E. cbn [obind].
    exists (a :: l'). split; [reflexivity|]. split; [simpl; lia|].
    intros x [Hx|Hx]; [right; left; exact Hx|]. destruct (I x Hx) as [J|J]; [left; exact J|right; right; exact J].
Qed.
Lemma at_ok : forall A (l : list A) i, (i < length l)%nat -> exists v, at_index l i = Ok v /\ In v l.
Proof.
  intros A l i H. unfold at_index. destruct (nth_error l i) eqn:E.
  - exists a. split; [reflexivity|]. eapply nth_error_In; exact E.
  - apply nth_error_None in E. lia.
Qed.

(** Entry [i] of the list after a write. *)
Lemma put_nth : forall A (l : list A) i v l', put l i v = Ok l' ->
  forall j, nth_error l' j = if Nat.eqb j i then Some v else nth_error l j.
Proof.
  induction l as [|a l IH]; intros i v l' H j; [discriminate|].
  destruct i as [|i]; cbn [put] in H.
  - injection H as H. subst. destruct j; reflexivity.
  - destruct (put l i v) eqn:E; cbn [obind] in H; try discriminate. injection H as H. subst.
    destruct j; [reflexivity|]. cbn [nth_error Nat.eqb]. apply (IH i v a0 E).
Qed.

Lemma fill_ok : forall n s iv, 1 <= s <= 2147483646 -> length iv = 32%nat -> 
  exists iv', fill n s iv = Ok (lehmer n s, iv') /\ length iv' = 32%nat /\
    (forall j, (j < n)%nat -> (j < 32)%nat -> nth_error iv' j = Some (lehmer (n - j) s)) /\
    (forall j, (n <= j)%nat -> nth_error iv' j = nth_error iv j).
Proof.
  induction n as [|n IH]; intros s iv H L.
  - exists iv. cbn [fill]. rewrite lehmer_0 by assumption. repeat split; auto. intros; lia.
  - cbn [fill]. rewrite fill_step by exact H.
    destruct (Nat.leb_spec (S n) ntab) as [LE|GT]; unfold ntab in *.
    + destruct (put_ok Z iv n ((16807 * s) mod 2147483647)) as (iv1 & E1 & L1 & _); [lia|].
      rewrite E1. cbn [obind].
      destruct (IH ((16807 * s) mod 2147483647) iv1 (step_pos s H) ltac:(lia)) as (iv' & E & L' & N & K).
      exists iv'. rewrite E. rewrite lehmer_shift. split; [reflexivity|]. split; [exact L'|].
      split.
      * intros j J1 J2. destruct (Nat.eq_dec j n) as [->|NE].
        { rewrite K by lia. rewrite (put_nth _ _ _ _ _ E1), Nat.eqb_refl. f_equal.
          replace (S n - n)%nat with 1%nat by lia. unfold lehmer. change (Z.of_nat 1) with 1. reflexivity. }
        { rewrite N by lia. rewrite lehmer_shift. do 2 f_equal. lia. }
      * intros j J. rewrite K by lia. rewrite (put_nth _ _ _ _ _ E1).
        destruct (Nat.eqb_spec j n); [lia|reflexivity].
    + cbn [obind].
      destruct (IH ((16807 * s) mod 2147483647) iv (step_pos s H) L) as (iv' & E & L' & N & K).
      exists iv'. rewrite E. rewrite lehmer_shift. split; [reflexivity|]. split; [exact L'|].
      split.
      * intros j J1 J2. rewrite N by lia. rewrite lehmer_shift. do 2 f_equal. lia.
      * intros j J. apply K. lia.
Qed.

(** ** Drawing *)
Section Draw.
Variable s0 : Z.
Hypothesis S0 : 1 <= s0 <= 2147483646.

Definition drawn (v : Z) := exists k, (1 <= k)%nat /\ v = lehmer k s0.
Lemma drawn_pos : forall v, drawn v -> 1 <= v <= 2147483646.
Proof. intros v (k & _ & ->). apply lehmer_pos, S0. Qed.

Definition table (iv : list Z) := length iv = 32%nat /\ forall v, In v iv -> drawn v.

Lemma index_ok : forall y, 1 <= y <= 2147483646 ->
  (16 * y / 1073741839 <? 0) = false /\ (Z.to_nat (16 * y / 1073741839) < 32)%nat.
Proof.
  intros y H. assert (B : 0 <= 16 * y / 1073741839 < 32).
  { split; [apply Z.div_pos; lia|apply Z.div_lt_upper_bound; lia]. }
  split; [apply Z.ltb_ge; lia|]. lia.
Qed.

Lemma draw_ok : forall n y iv, (1 <= n)%nat -> drawn y -> table iv ->
  exists v g, draw (lehmer n s0) y iv = Ok (Rmin (1 / IZR im * IZR v) rnmx, g) /\ drawn v /\
    g_iy g = v /\ table (g_iv g) /\ g_seed g = lehmer (S n) s0.
Proof.
  intros n y iv N Y (L & T). unfold draw.
  rewrite draw_step by apply lehmer_pos, S0. cbv zeta. destruct (index_ok y (drawn_pos y Y)) as (-> & J).
  destruct (at_ok Z iv _ ltac:(rewrite L; exact J)) as (v & Ev & Iv). rewrite Ev. cbn [obind].
  destruct (put_ok Z iv (Z.to_nat (16 * y / 1073741839)) ((16807 * lehmer n s0) mod 2147483647)) as (iv' & E & L' & I');
    [lia|].
  rewrite E. cbn [obind].
  exists v. eexists. split; [reflexivity|]. cbn [g_iy g_iv g_seed].
  split; [apply T, Iv|]. split; [reflexivity|]. split.
  - split; [lia|]. intros x X. destruct (I' x X) as [->|K]; [|apply T, K].
    exists (S n). split; [lia|]. rewrite lehmer_S. reflexivity.
  - rewrite lehmer_S. reflexivity.
Qed.

(** Between calls: nothing drawn yet, or [n] numbers drawn. *)
Definition state (seed : Z) (n : nat) (g : rng) :=
  match n with
  | O => g = fresh_rng seed
  | S _ => g_seed g = lehmer (40 + n) s0 /\ drawn (g_iy g) /\ table (g_iv g)
  end.

Lemma start_ok : forall seed, -2147483646 <= seed <= 0 -> s0 = Z.max (- seed) 1 ->
  exists iv, start seed 0 (repeat 0 ntab) = Ok (lehmer 40 s0, lehmer 40 s0, iv) /\ table iv.
Proof.
  intros seed H E. unfold start. replace (seed <=? 0) with true by (symmetry; apply Z.leb_le; lia).
  cbn [orb]. rewrite int32_ok by lia. cbn [obind]. rewrite <- E.
  destruct (fill_ok (ntab + 8) s0 (repeat 0 ntab) S0 eq_refl) as (iv & F & L & N & _).
  unfold ntab in F, N. cbn [Nat.add] in F, N. unfold ntab. cbn [Nat.add]. rewrite F. cbn [obind fst snd].
  unfold at_index. rewrite (N 0%nat) by lia. cbn [obind]. exists iv. split; [reflexivity|].
  split; [exact L|]. intros v V. apply In_nth_error in V. destruct V as (j & V).
  assert (J : (j < 32)%nat). { rewrite <- L. apply nth_error_Some. congruence. }
  rewrite N in V by lia. exists (40 - j)%nat. split; [lia|].
  apply (f_equal (fun o => match o with Some x => x | None => 0 end)) in V. symmetry. exact V.
Qed.

Lemma randf_2_ok : forall seed n g, -2147483646 <= seed <= 0 -> s0 = Z.max (- seed) 1 -> state seed n g ->
  exists v g', randf_2 (g_seed g) g = Ok (Rmin (1 / IZR im * IZR v) rnmx, g') /\ drawn v /\ state seed (S n) g'.
Proof.
  intros seed n g H E ST. unfold randf_2. destruct n as [|n].
  - cbn [state] in ST. subst g. cbn [g_seed g_iy g_iv fresh_rng].
    destruct (start_ok seed H E) as (iv & Es & T). rewrite Es. cbn [obind fst snd].
    destruct (draw_ok 40 (lehmer 40 s0) iv) as (v & g' & D & Dv & G1 & G2 & G3);
      [lia| exists 40%nat; split; [lia|reflexivity] |exact T|].
    exists v, g'. split; [exact D|]. split; [exact Dv|]. cbn [state]. subst v. repeat split; auto; apply G2.
  - cbn [state] in ST. destruct ST as (G1 & G2 & G3).
    assert (P : 1 <= g_seed g) by (rewrite G1; apply lehmer_pos, S0).
    pose proof (drawn_pos _ G2) as Q.
    unfold start. replace (g_seed g <=? 0) with false by (symmetry; apply Z.leb_gt; lia).
    replace (g_iy g =? 0) with false by (symmetry; apply Z.eqb_neq; lia). cbn [orb obind fst snd].
    rewrite G1. destruct (draw_ok (40 + S n) (g_iy g) (g_iv g)) as (v & g' & D & Dv & K1 & K2 & K3); [lia|exact G2|exact G3|].
    exists v, g'. split; [exact D|]. split; [exact Dv|]. cbn [state]. split; [|subst v; split; assumption].
    rewrite K3. f_equal.
Qed.

Lemma randf_1_ok : forall seed, -2147483646 <= seed <= 0 -> s0 = Z.max (- seed) 1 ->
  forall k n g lo hi, state seed n g ->
  exists l g', randf_1 k lo hi (g_seed g) g = Ok (l, g') /\ length l = k /\ state seed (n + k) g' /\
    forall v, In v l -> exists z, drawn z /\ (v = Rmin (1 / IZR im * IZR z) rnmx * (hi - lo) + lo)%R.
Proof.
  intros seed H E. induction k as [|k IH]; intros n g lo hi ST.
  - exists [], g. cbn [randf_1]. rewrite Nat.add_0_r. repeat split; auto. intros v [].
  - cbn [randf_1]. destruct (randf_2_ok seed n g H E ST) as (v & g1 & R2 & Dv & S1). rewrite R2.
    cbn [obind fst snd]. destruct (IH (S n) g1 lo hi S1) as (l & g' & R1 & L & S2 & I). rewrite R1.
    cbn [obind fst snd]. eexists. exists g'. split; [reflexivity|]. split; [simpl; lia|]. split.
    + replace (n + S k)%nat with (S n + k)%nat by lia. exact S2.
    + intros w [W|W]; [|apply I, W]. exists v. split; [exact Dv|]. symmetry. exact W.
Qed.
End Draw.

Lemma unit_value : forall s0 z, 1 <= s0 <= 2147483646 -> drawn s0 z ->
  (0 < Rmin (1 / IZR im * IZR z) rnmx < 1)%R.
Proof.
  intros s0 z S D. pose proof (drawn_pos s0 S z D) as B. unfold im, rnmx.
  assert (B1 : (1 <= IZR z)%R) by (apply IZR_le; lia).
  assert (B2 : (IZR z <= 2147483646)%R) by (apply IZR_le; lia).
  split.
  - apply Rmin_glb_lt; lra.
  - eapply Rle_lt_trans; [apply Rmin_r|lra].
Qed.

Lemma randf_range : forall seed n lo hi, -2147483646 <= seed <= 0 -> (lo < hi)%R ->
  exists l g, randf_1 n lo hi seed (fresh_rng seed) = Ok (l, g) /\ length l = n /\
    ((0 < n)%nat -> g_seed g = lehmer (40 + n) (Z.max (- seed) 1)) /\
    forall v, In v l -> (lo < v < hi)%R /\
      exists k, (1 <= k)%nat /\
        (v = lo + (hi - lo) * Rmin (IZR (lehmer k (Z.max (- seed) 1)) / 2147483647) (1 - 12/100000000))%R.
Proof.
  intros seed n lo hi H LT.
  assert (S0 : 1 <= Z.max (- seed) 1 <= 2147483646) by lia.
  destruct (randf_1_ok _ S0 seed H eq_refl n 0 (fresh_rng seed) lo hi eq_refl) as (l & g & E & L & ST & I).
  exists l, g. split; [exact E|]. split; [exact L|]. split.
  - intros N. destruct n; [lia|]. cbn [Nat.add state] in ST. apply ST.
  - intros v V. destruct (I v V) as (z & D & ->). pose proof (unit_value _ z S0 D) as U. split.
    + split; [|]; [|]; nra.
    + destruct D as (k & K & ->). exists k. split; [exact K|]. unfold im, rnmx.
      set (w := IZR (lehmer k (Z.max (- seed) 1))).
      replace (1 / 2147483647 * w)%R with (w / 2147483647)%R by field. ring.
Qed.
