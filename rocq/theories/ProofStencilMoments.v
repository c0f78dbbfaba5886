From Coq Require Import QArith Qreals.
From Verif Require Import Prelude StencilData ModelStencils SpecStencils BigSum ProofStencils.
Open Scope R_scope.

(** * Moments of the individual stencils *)

Lemma sqrt5_lt3 : sqrt 5 < 3.
Proof. rewrite <- (sqrt_square 3) by lra. apply sqrt_lt_1; lra. Qed.

Lemma mom_D3Q13_even s ks :
  length ks = 3%nat -> (sum_list ks <= 5)%nat -> Nat.odd (sum_list ks) = false ->
  mom (D3Q13 s) ks = gauss (s * s / 3) ks.
Proof.
  intros HL Hs Hodd. pose proof (in_exps _ _ _ HL Hs) as Hin.
  cbn in Hin. 
  unfold mom, D3Q13, gauss. cbn [st_Q st_w st_e].
  unfold D3Q13_rows.
  set (p := s * (1 / sqrt 3) * sqrt ((5 + sqrt 5) / 2)).
  set (m := s * (1 / sqrt 3) * sqrt ((5 - sqrt 5) / 2)).
  set (c := s * s / 6). set (r := sqrt 5).
  assert (Hr : r * r = 5) by (apply sqrt_sqrt; lra).
  assert (H3 : sqrt 3 * sqrt 3 = 3) by (apply sqrt_sqrt; lra).
  assert (Hr3 : r < 3).
  { unfold r. rewrite <- (sqrt_square 3) by lra. apply sqrt_lt_1; lra. }
  assert (Hrp : 0 <= r) by apply sqrt_pos.
  assert (H3n := sqrt3_neq0).
  assert (Hp : p * p = 5 * c + c * r).
  { unfold p, c. transitivity (s * s * (1 / (sqrt 3 * sqrt 3)) * (sqrt ((5 + sqrt 5) / 2) * sqrt ((5 + sqrt 5) / 2))).
    field; assumption. rewrite H3, sqrt_sqrt by (fold r; lra). fold r. field. }
  assert (Hm : m * m = 5 * c - c * r).
  { unfold m, c. transitivity (s * s * (1 / (sqrt 3 * sqrt 3)) * (sqrt ((5 - sqrt 5) / 2) * sqrt ((5 - sqrt 5) / 2))).
    field; assumption. rewrite H3, sqrt_sqrt by (fold r; lra). fold r. field. }
  replace (s * s / 3) with (2 * c) by (unfold c; field).
  clearbody p m c r.
  repeat (destruct Hin as [<-|Hin]; [try discriminate Hodd;
     cbn -[Rmult Rplus Rdiv Ropp IZR];
     try (field [Hp Hm Hr]) |]).
  all: try contradiction.
Qed.

Lemma mom_D3Q21_even s ks :
  length ks = 3%nat -> (sum_list ks <= 5)%nat -> Nat.odd (sum_list ks) = false ->
  mom (D3Q21 s) ks =
  gauss (s * s / 3 * ((3/5) / (774596669241483 / 1000000000000000) ^ 2)) ks.
Proof.
  intros HL Hs Hodd. pose proof (in_exps _ _ _ HL Hs) as Hin.
  cbn in Hin.
  unfold mom, D3Q21, gauss. cbn [st_Q st_w st_e].
  unfold D3Q21_rows.
  set (x := 774596669241483 / 1000000000000000).
  assert (Hx : x <> 0) by (unfold x; lra). clearbody x.
  set (c1 := s / x * (1 / sqrt 3)).
  set (p := c1 * (1 + sqrt 5) / 2).
  set (m := c1 * 1 / ((1 + sqrt 5) / 2)).
  set (r := sqrt 5).
  assert (Hr : r * r = 5) by (apply sqrt_sqrt; lra).
  assert (H3 : sqrt 3 * sqrt 3 = 3) by (apply sqrt_sqrt; lra).
  assert (Hrp : 0 <= r) by apply sqrt_pos.
  assert (H3n := sqrt3_neq0).
  replace (s * s / 3 * (3 / 5 / x ^ 2)) with (3 / 5 * c1 * c1).
  2:{ unfold c1. transitivity (3 / 5 * (s * s) / (x * x) / (sqrt 3 * sqrt 3)); [field; auto|].
      rewrite H3. field; auto. }
  assert (Hp : p = c1 * (1 + r) / 2) by reflexivity.
  assert (Hm : m = c1 * (r - 1) / 2).
  { unfold m. fold r. field_simplify_eq; [|lra]. ring [Hr]. }
  rewrite Hp, Hm.
  clearbody c1. clear Hp Hm p m. clearbody r.
  repeat (destruct Hin as [<-|Hin]; [try discriminate Hodd;
     cbn -[Rmult Rplus Rdiv Ropp IZR];
     try (field [Hr]) |]).
  all: try contradiction.
Qed.

(** ** D2Q25H is the tensor product of a five-point rule *)

Definition w25_0 : R := 8 / 15.
Definition w25_m : R := (7 + 2 * sqrt 10) / 60.
Definition w25_n : R := (7 - 2 * sqrt 10) / 60.

Lemma D2Q25H_r2 : ((sqrt 5 - sqrt 2) / sqrt 3) * ((sqrt 5 - sqrt 2) / sqrt 3) = (7 - 2 * sqrt 10) / 3.
Proof.
  assert (H5 : sqrt 5 * sqrt 5 = 5) by (apply sqrt_sqrt; lra).
  assert (H2 : sqrt 2 * sqrt 2 = 2) by (apply sqrt_sqrt; lra).
  assert (H3 : sqrt 3 * sqrt 3 = 3) by (apply sqrt_sqrt; lra).
  assert (H10 : sqrt 5 * sqrt 2 = sqrt 10) by (rewrite <- sqrt_mult by lra; f_equal; lra).
  transitivity ((sqrt 5 * sqrt 5 + sqrt 2 * sqrt 2 - 2 * (sqrt 5 * sqrt 2)) / (sqrt 3 * sqrt 3)).
  - field. apply sqrt3_neq0.
  - rewrite H5, H2, H3, H10. field.
Qed.

Lemma sqrt10_bounds : 3 < sqrt 10 < 16/5.
Proof.
  split.
  - rewrite <- (sqrt_square 3) by lra. apply sqrt_lt_1; lra.
  - rewrite <- (sqrt_square (16/5)) by lra. apply sqrt_lt_1; lra.
Qed.

Lemma D2Q25H_weights_1d :
  let r := (sqrt 5 - sqrt 2) / sqrt 3 in
  (-3 - 3*r*r*r*r + 54*r*r) / (75*r*r) = w25_0 /\
  (9*r*r*r*r - 6 - 27*r*r) / (300*r*r*(r*r-1)) = w25_m /\
  (9 - 6*r*r*r*r - 27*r*r) / (300*(1-r*r)) = w25_n.
Proof.
  intros r. pose proof D2Q25H_r2 as Hr. fold r in Hr.
  pose proof sqrt10_bounds as Hb.
  assert (Hq : sqrt 10 * sqrt 10 = 10) by (apply sqrt_sqrt; lra).
  set (q := sqrt 10) in *. clearbody r. unfold w25_0, w25_m, w25_n. fold q. clearbody q.
  set (y := r * r) in *.
  replace (-3 - 3*r*r*r*r + 54*r*r) with (-3 - 3*y*y + 54*y) by (unfold y; ring).
  replace (75*r*r) with (75*y) by (unfold y; ring).
  replace (9*r*r*r*r - 6 - 27*r*r) with (9*y*y - 6 - 27*y) by (unfold y; ring).
  replace (300*r*r*(y-1)) with (300*y*(y-1)) by (unfold y; ring).
  replace (9 - 6*r*r*r*r - 27*r*r) with (9 - 6*y*y - 27*y) by (unfold y; ring).
  clearbody y. subst y.
  assert (H1 : (7 - 2*q)/3 <> 0) by (intros H; nra).
  assert (H2 : (7 - 2*q)/3 - 1 <> 0) by (intros H; nra).
  repeat split.
  - apply (Rmult_eq_reg_r (75 * ((7 - 2 * q) / 3))); [|lra].
    unfold Rdiv at 1. rewrite Rmult_assoc, Rinv_l by lra. field [Hq].
  - apply (Rmult_eq_reg_r (300 * ((7 - 2 * q) / 3) * ((7 - 2 * q) / 3 - 1))).
    2:{ apply Rmult_integral_contrapositive_currified; [lra|assumption]. }
    unfold Rdiv at 1. rewrite Rmult_assoc, Rinv_l.
    2:{ apply Rmult_integral_contrapositive_currified; [lra|assumption]. }
    field [Hq].
  - apply (Rmult_eq_reg_r (300 * (1 - (7 - 2 * q) / 3))); [|lra].
    unfold Rdiv at 1. rewrite Rmult_assoc, Rinv_l by lra. field [Hq].
Qed.

(** one-dimensional moment of the five-point rule *)
Definition m25 (m n : R) (k : nat) : R :=
  w25_0 * 0 ^ k + w25_m * (m ^ k + (-m) ^ k) + w25_n * (n ^ k + (-n) ^ k).

Lemma mom_D2Q25H_tensor s k l :
  mom (D2Q25H s) [k; l] =
  m25 (s * sqrt (5 - sqrt 10) / sqrt 3) (sqrt (5 + sqrt 10) * s / sqrt 3) k *
  m25 (s * sqrt (5 - sqrt 10) / sqrt 3) (sqrt (5 + sqrt 10) * s / sqrt 3) l.
Proof.
  destruct D2Q25H_weights_1d as [H0 [Hm Hn]].
  unfold mom, D2Q25H. cbn [st_Q st_w st_e]. unfold D2Q25H_rows, D2Q25H_wts.
  rewrite H0, Hm, Hn.
  set (m := s * sqrt (5 - sqrt 10) / sqrt 3).
  set (n := sqrt (5 + sqrt 10) * s / sqrt 3).
  cbn [sumf nth tblR monomial st_e].
  unfold m25. cbn [tblR nth]. unfold tblR. cbn [nth].
  generalize (0 ^ k) (m ^ k) ((-m) ^ k) (n ^ k) ((-n) ^ k) (0 ^ l) (m ^ l) ((-m) ^ l) (n ^ l) ((-n) ^ l).
  intros. ring.
Qed.

Lemma m25_normal s k : (k <= 9)%nat ->
  let m := s * sqrt (5 - sqrt 10) / sqrt 3 in
  let n := sqrt (5 + sqrt 10) * s / sqrt 3 in
  (Nat.odd k = true -> m25 m n k = 0) /\
  (Nat.odd k = false -> m25 m n k = IZR (normal_moment k) * (s * s / 3) ^ (Nat.div2 k)).
Proof.
  intros Hk m n.
  pose proof sqrt10_bounds as Hb.
  assert (Hq : sqrt 10 * sqrt 10 = 10) by (apply sqrt_sqrt; lra).
  assert (H3 : sqrt 3 * sqrt 3 = 3) by (apply sqrt_sqrt; lra).
  assert (H3n := sqrt3_neq0).
  set (c := s * s / 3).
  assert (Hm : m * m = c * (5 - sqrt 10)).
  { unfold m, c. transitivity (s * s / (sqrt 3 * sqrt 3) * (sqrt (5 - sqrt 10) * sqrt (5 - sqrt 10))).
    field; auto. rewrite H3. rewrite sqrt_sqrt by lra. field. }
  assert (Hn : n * n = c * (5 + sqrt 10)).
  { unfold n, c. transitivity (s * s / (sqrt 3 * sqrt 3) * (sqrt (5 + sqrt 10) * sqrt (5 + sqrt 10))).
    field; auto. rewrite H3. rewrite sqrt_sqrt by lra. field. }
  clearbody m n c. unfold m25, w25_0, w25_m, w25_n.
  set (q := sqrt 10) in *. clearbody q.
  do 10 (destruct k as [|k]; [split; intros Ho; try discriminate Ho;
    cbn -[Rmult Rplus Rdiv Ropp IZR]; field [Hm Hn Hq]|]). lia.
Qed.

Lemma div2_even_add k l : Nat.odd k = false -> Nat.div2 (k + l) = (Nat.div2 k + Nat.div2 l)%nat.
Proof.
  intros Hk. assert (He : Nat.even k = true) by (rewrite <- Nat.negb_odd, Hk; reflexivity).
  apply Nat.even_spec in He. destruct He as [a ->].
  rewrite Nat.div2_double. rewrite Nat.div2_div, (Nat.div2_div l).
  replace (2 * a + l)%nat with (l + a * 2)%nat by lia.
  rewrite Nat.div_add by lia. lia.
Qed.

Lemma mom_D2Q25H_exact s ks :
  length ks = 2%nat -> (sum_list ks <= 9)%nat -> mom (D2Q25H s) ks = gauss (s * s / 3) ks.
Proof.
  intros HL Hs. destruct ks as [|k [|l [|? ?]]]; try discriminate.
  cbn [sum_list fold_right] in Hs.
  rewrite mom_D2Q25H_tensor.
  destruct (m25_normal s k) as [Hk0 Hk1]; [lia|].
  destruct (m25_normal s l) as [Hl0 Hl1]; [lia|].
  unfold gauss. cbn [map fold_right sum_list]. rewrite Nat.add_0_r, Z.mul_1_r, mult_IZR.
  destruct (Nat.odd k) eqn:Ek.
  - rewrite Hk0 by reflexivity. rewrite (normal_moment_odd k Ek). ring.
  - destruct (Nat.odd l) eqn:El.
    + rewrite Hl0 by reflexivity. rewrite (normal_moment_odd l El). ring.
    + rewrite Hk1, Hl1 by reflexivity. rewrite div2_even_add by assumption.
      rewrite pow_add. ring.
Qed.

(** ** All stencils *)

Definition mom_ok (st : stencil) (order : nat) (tol : R) : Prop :=
  forall ks, length ks = st_D st -> (sum_list ks <= order)%nat ->
  Rabs (mom st ks - gauss (st_cs2 st) ks) <= tol * Rabs (st_cs st) ^ (sum_list ks).

Lemma mom_ok_of_even st order tol :
  opp_ok st -> st_cs2 st = st_cs st * st_cs st -> 0 <= tol ->
  (forall ks, length ks = st_D st -> (sum_list ks <= order)%nat -> Nat.odd (sum_list ks) = false ->
     Rabs (mom st ks - gauss (st_cs2 st) ks) <= tol * (st_cs2 st) ^ (Nat.div2 (sum_list ks))) ->
  mom_ok st order tol.
Proof.
  intros Hopp Hcs Htol H ks HL Hs.
  destruct (Nat.odd (sum_list ks)) eqn:Hodd.
  - rewrite odd_mom_zero, gauss_odd by assumption.
    rewrite Rminus_0_r, Rabs_R0. apply Rmult_le_pos; [exact Htol|].
    apply pow_le, Rabs_pos.
  - specialize (H ks HL Hs Hodd).
    replace (Rabs (st_cs st) ^ sum_list ks) with (st_cs2 st ^ Nat.div2 (sum_list ks)); [exact H|].
    assert (He : Nat.even (sum_list ks) = true) by (rewrite <- Nat.negb_odd, Hodd; reflexivity).
    apply Nat.even_spec in He. destruct He as [a ->]. rewrite Nat.div2_double.
    rewrite pow_mult. f_equal. rewrite Hcs, RPow_abs, Rabs_pos_eq; [cbn; ring|].
    cbn. nra.
Qed.

Lemma cs2_sqrt s x : 0 < x -> s * s / x = s / sqrt x * (s / sqrt x).
Proof.
  intros Hx. assert (H : sqrt x * sqrt x = x) by (apply sqrt_sqrt; lra).
  assert (0 < sqrt x) by (apply sqrt_lt_R0; lra).
  rewrite <- H at 1. field. lra.
Qed.


Lemma tol_IZR n d : (0 <= n)%Z -> 0 <= IZR n / IZR (Z.pos d).
Proof.
  intros Hn. apply Rmult_le_pos; [apply IZR_le; exact Hn|].
  left. apply Rinv_0_lt_compat, IZR_lt. reflexivity.
Qed.

Lemma mom_ok_table D Q order dir wt P W kd tn td st c :
  check_mom D Q order dir wt P W kd tn td = true ->
  opp_ok st -> st_D st = D -> st_Q st = Q -> (0 <= tn)%Z ->
  (forall i a, (i < Q)%nat -> st_e st i a = c * tbl dir i a) ->
  (forall i, st_w st i = wtbl wt i) ->
  st_cs2 st = c * c / IZR (Z.pos kd) ->
  st_cs2 st = st_cs st * st_cs st ->
  mom_ok st order (IZR tn / IZR (Z.pos td)).
Proof.
  intros Hc Hopp HD HQ Htn He Hw Hcs2 Hcs.
  apply mom_ok_of_even; auto using tol_IZR.
  intros ks HL Hs Ho. rewrite HD in HL.
  exact (check_mom_sound D Q order dir wt P W kd tn td st c Hc HD HQ He Hw Hcs2 ks HL Hs Ho).
Qed.

Lemma mom_ok_tol st o t t' : mom_ok st o t -> t = t' -> mom_ok st o t'.
Proof. intros H <-. exact H. Qed.

Ltac mo D Q o dir wt P W kd tn td c :=
  eapply mom_ok_tol;
  [ apply (mom_ok_table D Q o dir wt P W kd tn td _ c);
    [ vm_compute; reflexivity
    | | reflexivity | reflexivity | lia
    | try reflexivity
    | reflexivity
    | cbn [st_cs2 D2Q9 D3Q15 D3Q19 D3Q27 RD3Q27 D3V27 D2Q19V D2Q19H D3Q45 D3Q77 D2Q777]
    | cbn [st_cs2 st_cs D2Q9 D3Q15 D3Q19 D3Q27 RD3Q27 D3V27 D2Q19V D2Q19H D3Q45 D3Q77 D2Q777];
      apply cs2_sqrt; lra ]
  | ].

Lemma mom_ok_D2Q9 s : mom_ok (D2Q9 s) 5 0.
Proof. mo 2%nat 9%nat 5%nat D2Q9_dir D2Q9_wt 1%positive 36%positive 3%positive 0%Z 1%positive s;
  [apply opp_ok_D2Q9 | reflexivity | lra]. Qed.
Lemma mom_ok_D3Q15 s : mom_ok (D3Q15 s) 5 0.
Proof. mo 3%nat 15%nat 5%nat D3Q15_dir D3Q15_wt 1%positive 72%positive 3%positive 0%Z 1%positive s;
  [apply opp_ok_D3Q15 | reflexivity | lra]. Qed.
Lemma mom_ok_D3Q19 s : mom_ok (D3Q19 s) 5 0.
Proof. mo 3%nat 19%nat 5%nat D3Q19_dir D3Q19_wt 1%positive 36%positive 3%positive 0%Z 1%positive s;
  [apply opp_ok_D3Q19 | reflexivity | lra]. Qed.
Lemma mom_ok_D3Q27 s : mom_ok (D3Q27 s) 5 0.
Proof. mo 3%nat 27%nat 5%nat D3Q27_dir D3Q27_wt 1%positive 216%positive 3%positive 0%Z 1%positive s;
  [apply opp_ok_D3Q27 | reflexivity | lra]. Qed.
Lemma mom_ok_RD3Q27 s : mom_ok (RD3Q27 s) 5 0.
Proof. mo 3%nat 27%nat 5%nat RD3Q27_dir RD3Q27_wt 2%positive 300%positive 5%positive 0%Z 1%positive s;
  [apply opp_ok_RD3Q27 | reflexivity | lra]. Qed.

Lemma cs2_div1 s : s * s / 3 = s / sqrt 3 * (s / sqrt 3) / IZR 1.
Proof. rewrite <- cs2_sqrt by lra. field. Qed.

Lemma e_lit s x : s * x / sqrt 3 = s / sqrt 3 * x.
Proof. unfold Rdiv. ring. Qed.

Lemma mom_ok_D3V27 s : mom_ok (D3V27 s) 5 (2 / 10^15).
Proof. mo 3%nat 27%nat 5%nat D3V27_dir D3V27_wt (2*10^15)%positive (10^19)%positive 1%positive 2%Z 1000000000000000%positive (s/sqrt 3);
  [apply opp_ok_D3V27 | intros; apply e_lit | apply cs2_div1 | lra]. Qed.
Lemma mom_ok_D2Q19V s : mom_ok (D2Q19V s) 5 (1 / 10^15).
Proof. mo 2%nat 19%nat 5%nat D2Q19V_dir D2Q19V_wt (10^16)%positive (10^19)%positive 1%positive 1%Z 1000000000000000%positive (s/sqrt 3);
  [apply opp_ok_D2Q19V | intros; apply e_lit | apply cs2_div1 | lra]. Qed.
Lemma mom_ok_D3Q45 s : mom_ok (D3Q45 s) 5 (1 / 10^14).
Proof. mo 3%nat 45%nat 5%nat D3Q45_dir D3Q45_wt (10^17)%positive (10^19)%positive 1%positive 1%Z 100000000000000%positive (s/sqrt 3);
  [apply opp_ok_D3Q45 | intros; apply e_lit | apply cs2_div1 | lra]. Qed.
Lemma mom_ok_D3Q77 s : mom_ok (D3Q77 s) 5 (2 / 10^14).
Proof. mo 3%nat 77%nat 5%nat D3Q77_dir D3Q77_wt 1250000000000000%positive (10^20)%positive 1%positive 2%Z 100000000000000%positive (s/sqrt 3);
  [apply opp_ok_D3Q77 | intros; apply e_lit | apply cs2_div1 | lra]. Qed.
Lemma mom_ok_D2Q777 s : mom_ok (D2Q777 s) 3 (1 / 10^7).
Proof. mo 2%nat 777%nat 3%nat D2Q777_dir D2Q777_wt (10^16)%positive (10^26)%positive 1%positive 1%Z 10000000%positive (s/sqrt 3);
  [apply opp_ok_D2Q777 | intros; apply e_lit | apply cs2_div1 | lra]. Qed.

Lemma monomial_ext st st' i ks : forall a,
  (forall b, (a <= b < a + length ks)%nat -> st_e st i b = st_e st' i b) ->
  monomial st i a ks = monomial st' i a ks.
Proof.
  induction ks as [|k ks IH]; intros a H; [reflexivity|]. cbn [monomial length] in *.
  rewrite (H a) by lia. f_equal. apply IH. intros b Hb. apply H. lia.
Qed.

Lemma mom_ok_D2Q19H s : mom_ok (D2Q19H s) 5 (1 / 10^15).
Proof.
  set (st' := mkStencil 2 19 (fun i a => s / sqrt 3 * tbl (swap2 D2Q19H_dir) i a) (wtbl D2Q19H_wt)
        (opp_default0 D2Q19H_opp) (s / sqrt 3) (s * s / 3) (sqrt 2 * s)).
  assert (He : forall i a, (i < 19)%nat -> (a < 2)%nat -> st_e (D2Q19H s) i a = st_e st' i a).
  { intros i a Hi Ha. cbn [st_e D2Q19H st']. rewrite tbl_swap2_D2Q19H by assumption. apply e_lit. }
  assert (H : mom_ok st' 5 (1 / 10 ^ 15)).
  { mo 2%nat 19%nat 5%nat (swap2 D2Q19H_dir) D2Q19H_wt (10^16)%positive (10^19)%positive 1%positive 1%Z 1000000000000000%positive (s/sqrt 3);
    [ | apply cs2_div1 | lra].
    apply opp_ok_ext with (e' := st_e (D2Q19H s)).
    - intros. symmetry. apply He; assumption.
    - apply (opp_ok_D2Q19H s). }
  intros ks HL Hs. specialize (H ks HL Hs).
  replace (mom (D2Q19H s) ks) with (mom st' ks); [exact H|].
  apply sumf_ext. intros i Hi. cbn [st_w D2Q19H st']. f_equal.
  apply monomial_ext. intros b Hb. symmetry. apply He; [exact Hi|]. cbn in HL. lia.
Qed.

Lemma mom_ok_exact st order :
  opp_ok st -> st_cs2 st = st_cs st * st_cs st ->
  (forall ks, length ks = st_D st -> (sum_list ks <= order)%nat -> Nat.odd (sum_list ks) = false ->
     mom st ks = gauss (st_cs2 st) ks) ->
  mom_ok st order 0.
Proof.
  intros Hopp Hcs H. apply mom_ok_of_even; auto; [lra|].
  intros ks HL Hs Ho. rewrite H by assumption. rewrite Rminus_diag_eq, Rabs_R0 by reflexivity. lra.
Qed.

Lemma mom_ok_D3Q13 s : mom_ok (D3Q13 s) 5 0.
Proof.
  apply mom_ok_exact; [apply opp_ok_D3Q13 | cbn [D3Q13 st_cs2 st_cs]; apply cs2_sqrt; lra|].
  intros. apply mom_D3Q13_even; assumption.
Qed.

Lemma mom_ok_D2Q25H s : mom_ok (D2Q25H s) 9 0.
Proof.
  apply mom_ok_exact; [apply opp_ok_D2Q25H | cbn [D2Q25H st_cs2 st_cs]; apply cs2_sqrt; lra|].
  intros. apply mom_D2Q25H_exact; assumption.
Qed.

Lemma mom_ok_D3Q21 s : mom_ok (D3Q21 s) 5 (1 / 10^14).
Proof.
  apply mom_ok_of_even; [apply opp_ok_D3Q21 | cbn [D3Q21 st_cs2 st_cs]; apply cs2_sqrt; lra | lra |].
  intros ks HL Hs Ho. rewrite mom_D3Q21_even by assumption.
  cbn [D3Q21 st_cs2 st_D] in *.
  assert (Hc : 0 <= s * s / 3) by nra.
  unfold gauss. rewrite Rpow_mult_distr.
  set (h := Nat.div2 (sum_list ks)) in *.
  assert (Hch : 0 <= (s * s / 3) ^ h) by (apply pow_le; exact Hc).
  set (G := IZR (fold_right Z.mul 1%Z (map normal_moment ks))).
  set (k := 3 / 5 / (774596669241483 / 1000000000000000) ^ 2).
  assert (HG : 0 <= G <= 3 /\ (h = 0 \/ h = 1 \/ h = 2)%nat).
  { unfold G, h. pose proof (in_exps _ _ _ HL Hs) as Hin. cbn in Hin.
    repeat (destruct Hin as [<-|Hin]; [try discriminate Ho; (cbn; split; [lra|lia]) |]).
    contradiction. }
  destruct HG as [HG Hh].
  replace (G * ((s * s / 3) ^ h * k ^ h) - G * (s * s / 3) ^ h)
    with ((s * s / 3) ^ h * (G * (k ^ h - 1))) by ring.
  rewrite Rabs_mult, (Rabs_pos_eq _ Hch), Rmult_comm.
  apply Rmult_le_compat_r; [exact Hch|].
  assert (Hk : Rabs (k - 1) <= 1 / 10 ^ 15) by (unfold k; apply Rabs_le; lra).
  assert (Hk2 : Rabs (k ^ 2 - 1) <= 2 / 10 ^ 15).
  { unfold k. apply Rabs_le; lra. }
  rewrite Rabs_mult, (Rabs_pos_eq G) by lra.
  destruct Hh as [->|[->| ->]].
  - rewrite pow_O, Rminus_diag_eq, Rabs_R0 by reflexivity. lra.
  - rewrite pow_1. apply Rle_trans with (3 * (1 / 10 ^ 15)); [|lra].
    apply Rmult_le_compat; try lra. apply Rabs_pos.
  - apply Rle_trans with (3 * (2 / 10 ^ 15)); [|lra].
    apply Rmult_le_compat; try lra. apply Rabs_pos.
Qed.

Lemma mom_ok_all t s : mom_ok (stencil_of t s) (moment_order t) (moment_tol t).
Proof.
  destruct t; cbn [stencil_of moment_order moment_tol];
  auto using mom_ok_D2Q9, mom_ok_D3Q15, mom_ok_D3Q19, mom_ok_D3Q27, mom_ok_RD3Q27,
    mom_ok_D2Q19H, mom_ok_D2Q19V, mom_ok_D3Q45, mom_ok_D3Q77, mom_ok_D3V27, mom_ok_D2Q777,
    mom_ok_D3Q13, mom_ok_D3Q21, mom_ok_D2Q25H.
Qed.

(** ** Weights are positive *)

Lemma wt_pos_table wt Q :
  (Nat.eqb (length wt) Q && forallb (fun q => Z.ltb 0 (Qnum q)) wt)%bool = true ->
  forall i, (i < Q)%nat -> 0 < wtbl wt i.
Proof.
  rewrite andb_true_iff. intros [HL H] i Hi. apply Nat.eqb_eq in HL.
  rewrite forallb_forall in H. specialize (H (nth i wt 0%Q)).
  unfold wtbl, Q2R. apply Rmult_lt_0_compat.
  - apply IZR_lt, Z.ltb_lt, H, nth_In. lia.
  - apply Rinv_0_lt_compat, IZR_lt. reflexivity.
Qed.

Lemma weights_pos t s i : (i < st_Q (stencil_of t s))%nat -> 0 < st_w (stencil_of t s) i.
Proof.
  destruct t; cbn [stencil_of st_Q st_w D2Q9 D3Q15 D3Q19 D3Q27 RD3Q27 D3V27 D2Q19V D2Q19H
    D3Q45 D3Q77 D2Q777 D3Q13 D3Q21 D2Q25H]; intros Hi;
  try (eapply wt_pos_table; [|exact Hi]; vm_compute; reflexivity).
  - destruct D2Q25H_weights_1d as [H0 [Hm Hn]]. unfold D2Q25H_wts. rewrite H0, Hm, Hn.
    assert (0 < w25_0) by (unfold w25_0; lra).
    assert (0 < w25_m) by (pose proof sqrt10_bounds; unfold w25_m; lra).
    assert (0 < w25_n) by (pose proof sqrt10_bounds; unfold w25_n; lra).
    do 25 (destruct i as [|i]; [cbn; apply Rmult_lt_0_compat; assumption|]). lia.
  - destruct i; lra.
  - destruct i; lra.
Qed.
