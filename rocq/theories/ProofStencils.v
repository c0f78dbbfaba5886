(** Proofs about the stencil tables: opposite directions, moments. *)
From Coq Require Import QArith Qreals.
From Verif Require Import Prelude StencilData ModelStencils SpecStencils BigSum.
Open Scope R_scope.

(* ------------------------------------------------------------------ *)
(** * Opposite directions *)

Definition opp_ok (st : stencil) : Prop :=
  forall i, (i < st_Q st)%nat ->
  exists j, st_opp st i = Some j /\ (j < st_Q st)%nat /\ st_opp st j = Some i /\
            st_w st j = st_w st i /\
            forall a, (a < st_D st)%nat -> st_e st j a = - st_e st i a.

(** structural equality of fractions (sound, and complete on tables with a common denominator) *)
Definition qeqb (x y : Q) : bool := Z.eqb (Qnum x) (Qnum y) && Pos.eqb (Qden x) (Qden y).

Lemma qeqb_eq x y : qeqb x y = true -> x = y.
Proof.
  unfold qeqb. rewrite andb_true_iff. intros [H1 H2].
  apply Z.eqb_eq in H1. apply Pos.eqb_eq in H2. destruct x, y; cbn in *; congruence.
Qed.

Definition check_opp (D Q : nat) (dir : list (list QArith_base.Q)) (wt : list QArith_base.Q)
    (opp : list nat) : bool :=
  Nat.eqb (length opp) Q &&
  forallb (fun i =>
    let j := nth i opp 0%nat in
    Nat.ltb j Q && Nat.eqb (nth j opp 0%nat) i &&
    qeqb (nth j wt 0%Q) (nth i wt 0%Q) &&
    forallb (fun a => qeqb (tblQ dir j a) (- tblQ dir i a)) (seq 0 D)) (seq 0 Q).

Lemma check_opp_sound D Q dir wt opp :
  check_opp D Q dir wt opp = true ->
  length opp = Q /\
  forall i, (i < Q)%nat ->
    let j := nth i opp 0%nat in
    (j < Q)%nat /\ nth j opp 0%nat = i /\ wtbl wt j = wtbl wt i /\
    forall a, (a < D)%nat -> tbl dir j a = - tbl dir i a.
Proof.
  unfold check_opp. rewrite andb_true_iff. intros [HL H]. apply Nat.eqb_eq in HL.
  split; [exact HL|].
  rewrite forallb_forall in H. intros i Hi. cbv zeta. set (j := nth i opp 0%nat).
  assert (Hin : In i (seq 0 Q)) by (apply in_seq; lia).
  specialize (H i Hin). cbv zeta in H. fold j in H.
  rewrite !andb_true_iff in H. destruct H as [[[H1 H2] H3] H4].
  apply Nat.ltb_lt in H1. apply Nat.eqb_eq in H2. apply qeqb_eq in H3.
  rewrite forallb_forall in H4. repeat split; auto.
  - unfold wtbl. fold j. rewrite H3. reflexivity.
  - intros a Ha. unfold tbl. rewrite <- Q2R_opp. f_equal. apply qeqb_eq.
    apply H4. apply in_seq; lia.
Qed.

Lemma opp_ok_table D Q dir wt opp e w oppf cs cs2 mv c :
  check_opp D Q dir wt opp = true ->
  (forall i a, (a < D)%nat -> e i a = c * tbl dir i a) ->
  (forall i, w i = wtbl wt i) ->
  (forall i, (i < Q)%nat -> oppf i = Some (nth i opp 0%nat)) ->
  opp_ok (mkStencil D Q e w oppf cs cs2 mv).
Proof.
  intros Hc He Hw Ho i Hi. cbn in *.
  destruct (check_opp_sound _ _ _ _ _ Hc) as [_ H].
  destruct (H i Hi) as [H1 [H2 [H3 H4]]].
  exists (nth i opp 0%nat). rewrite (Ho i Hi), (Ho _ H1), H2, !Hw.
  repeat split; auto. intros a Ha. rewrite !He, H4 by assumption. ring.
Qed.

Lemma opp_ok_D2Q9 s : opp_ok (D2Q9 s).
Proof. apply (opp_ok_table _ _ D2Q9_dir D2Q9_wt D2Q9_opp) with (c := s);
  [vm_compute; reflexivity | reflexivity | reflexivity | reflexivity]. Qed.
Lemma opp_ok_D3Q15 s : opp_ok (D3Q15 s).
Proof. apply (opp_ok_table _ _ D3Q15_dir D3Q15_wt D3Q15_opp) with (c := s);
  [vm_compute; reflexivity | reflexivity | reflexivity | reflexivity]. Qed.
Lemma opp_ok_D3Q19 s : opp_ok (D3Q19 s).
Proof. apply (opp_ok_table _ _ D3Q19_dir D3Q19_wt D3Q19_opp) with (c := s);
  [vm_compute; reflexivity | reflexivity | reflexivity | reflexivity]. Qed.
Lemma opp_ok_D3Q27 s : opp_ok (D3Q27 s).
Proof. apply (opp_ok_table _ _ D3Q27_dir D3Q27_wt D3Q27_opp) with (c := s);
  [vm_compute; reflexivity | reflexivity | reflexivity | reflexivity]. Qed.
Lemma opp_ok_RD3Q27 s : opp_ok (RD3Q27 s).
Proof. apply (opp_ok_table _ _ RD3Q27_dir RD3Q27_wt RD3Q27_opp) with (c := s);
  [vm_compute; reflexivity | reflexivity | reflexivity | reflexivity]. Qed.

Lemma sqrt3_neq0 : sqrt 3 <> 0.
Proof. intros H. assert (0 < sqrt 3) by (apply sqrt_lt_R0; lra). lra. Qed.

Ltac e_scaled := intros; cbn; unfold Rdiv; ring.

(** D2Q19H uses the literal rows with swapped components. *)
Definition swap2 (t : list (list Q)) : list (list Q) :=
  map (fun r => match r with [x; y] => [y; x] | _ => r end) t.

Lemma tbl_swap2_D2Q19H i a : (i < 19)%nat -> (a < 2)%nat ->
  tbl D2Q19H_dir i (1 - a) = tbl (swap2 D2Q19H_dir) i a.
Proof.
  intros Hi Ha. unfold tbl. f_equal.
  do 19 (destruct i as [|i]; [destruct a as [|[|a]]; try lia; reflexivity|]). lia.
Qed.

Lemma opp_ok_ext D Q e e' w o cs cs2 mv :
  (forall i a, (i < Q)%nat -> (a < D)%nat -> e i a = e' i a) ->
  opp_ok (mkStencil D Q e' w o cs cs2 mv) -> opp_ok (mkStencil D Q e w o cs cs2 mv).
Proof.
  intros He H i Hi. destruct (H i Hi) as [j [H1 [H2 [H3 [H4 H5]]]]]. cbn in *.
  exists j. repeat split; auto. intros a Ha. rewrite !He by assumption. auto.
Qed.

Lemma opp_ok_D2Q19H s : opp_ok (D2Q19H s).
Proof.
  unfold D2Q19H.
  apply opp_ok_ext with (e' := fun i a => s * tbl (swap2 D2Q19H_dir) i a / sqrt 3).
  { intros i a Hi Ha. rewrite tbl_swap2_D2Q19H by assumption. reflexivity. }
  apply (opp_ok_table _ _ (swap2 D2Q19H_dir) D2Q19H_wt D2Q19H_opp) with (c := s / sqrt 3);
    [vm_compute; reflexivity | e_scaled | reflexivity | reflexivity].
Qed.
Lemma opp_ok_D2Q19V s : opp_ok (D2Q19V s).
Proof. apply (opp_ok_table _ _ D2Q19V_dir D2Q19V_wt D2Q19V_opp) with (c := s / sqrt 3);
  [vm_compute; reflexivity | e_scaled | reflexivity | reflexivity]. Qed.
Lemma opp_ok_D3Q45 s : opp_ok (D3Q45 s).
Proof. apply (opp_ok_table _ _ D3Q45_dir D3Q45_wt D3Q45_opp) with (c := s / sqrt 3);
  [vm_compute; reflexivity | e_scaled | reflexivity | reflexivity]. Qed.
Lemma opp_ok_D3Q77 s : opp_ok (D3Q77 s).
Proof. apply (opp_ok_table _ _ D3Q77_dir D3Q77_wt D3Q77_opp) with (c := s / sqrt 3);
  [vm_compute; reflexivity | e_scaled | reflexivity | reflexivity]. Qed.
Lemma opp_ok_D3V27 s : opp_ok (D3V27 s).
Proof. apply (opp_ok_table _ _ D3V27_dir D3V27_wt D3V27_opp) with (c := s / sqrt 3);
  [vm_compute; reflexivity | e_scaled | reflexivity | reflexivity]. Qed.
Lemma D2Q777_opp_length : length D2Q777_opp = 777%nat.
Proof. vm_compute; reflexivity. Qed.
Lemma opp_ok_D2Q777 s : opp_ok (D2Q777 s).
Proof. apply (opp_ok_table _ _ D2Q777_dir D2Q777_wt D2Q777_opp) with (c := s / sqrt 3);
  [vm_compute; reflexivity | e_scaled | reflexivity |].
  intros i Hi. unfold opp_nodefault. apply nth_error_nth'. rewrite D2Q777_opp_length. exact Hi.
Qed.

Ltac opp_irr :=
  let i := fresh "i" in let Hi := fresh "Hi" in
  intros i Hi; cbn [st_Q st_opp] in *;
  repeat (destruct i as [|i];
    [eexists; split; [reflexivity|];
     split; [cbn; lia|]; split; [reflexivity|]; split; [reflexivity|];
     let a := fresh "a" in let Ha := fresh "Ha" in
     intros a Ha; cbn [st_D st_e] in *;
     destruct a as [|[|[|a]]]; try lia; cbn -[Rmult Rdiv sqrt]; ring | try (exfalso; cbn in Hi; lia)]).

Lemma opp_ok_D3Q13 s : opp_ok (D3Q13 s).
Proof. unfold D3Q13. opp_irr. Qed.
Lemma opp_ok_D3Q21 s : opp_ok (D3Q21 s).
Proof. unfold D3Q21. opp_irr. Qed.
Lemma opp_ok_D2Q25H s : opp_ok (D2Q25H s).
Proof. unfold D2Q25H. opp_irr. Qed.

Lemma opp_ok_all t s : opp_ok (stencil_of t s).
Proof.
  destruct t; cbn [stencil_of];
  auto using opp_ok_D2Q9, opp_ok_D3Q15, opp_ok_D3Q19, opp_ok_D3Q27, opp_ok_RD3Q27,
    opp_ok_D2Q19H, opp_ok_D2Q19V, opp_ok_D3Q45, opp_ok_D3Q77, opp_ok_D3V27, opp_ok_D2Q777,
    opp_ok_D3Q13, opp_ok_D3Q21, opp_ok_D2Q25H.
Qed.

(* ------------------------------------------------------------------ *)
(** * Odd moments vanish, for every order *)

Lemma monomial_opp st i j ks : forall a,
  (forall b, (a <= b < a + length ks)%nat -> st_e st j b = - st_e st i b) ->
  monomial st j a ks = (-1) ^ (sum_list ks) * monomial st i a ks.
Proof.
  induction ks as [|k ks IH]; intros a H; cbn [monomial sum_list fold_right]; [cbn; ring|].
  fold (sum_list ks).
  rewrite IH by (intros b Hb; apply H; cbn; lia).
  rewrite (H a) by (cbn; lia). rewrite pow_add.
  replace (- st_e st i a) with ((-1) * st_e st i a) by ring.
  rewrite Rpow_mult_distr. ring.
Qed.

Lemma odd_mom_zero st ks :
  opp_ok st -> length ks = st_D st -> Nat.odd (sum_list ks) = true -> mom st ks = 0.
Proof.
  intros Hok Hlen Hodd. unfold mom.
  set (p := fun i => match st_opp st i with Some j => j | None => i end).
  set (f := fun i => st_w st i * monomial st i 0 ks).
  assert (Hinv : forall i, (i < st_Q st)%nat -> (p i < st_Q st)%nat /\ p (p i) = i).
  { intros i Hi. destruct (Hok i Hi) as [j [H1 [H2 [H3 _]]]]. unfold p. rewrite H1, H3. auto. }
  assert (Hneg : sumf (st_Q st) (fun i => f (p i)) = - sumf (st_Q st) f).
  { rewrite <- sumf_opp. apply sumf_ext. intros i Hi.
    destruct (Hok i Hi) as [j [H1 [H2 [H3 [H4 H5]]]]]. unfold p. rewrite H1. unfold f.
    rewrite H4, (monomial_opp st i j ks 0) by (intros b Hb; apply H5; lia).
    apply Nat.odd_spec in Hodd. destruct Hodd as [m Hm]. rewrite Hm.
    replace (2 * m + 1)%nat with (S (2 * m)) by lia. cbn [pow]. rewrite pow_1_even. ring. }
  rewrite (sumf_involution _ p f Hinv) in Hneg. fold f. lra.
Qed.

Lemma normal_moment_odd k : Nat.odd k = true -> normal_moment k = 0%Z.
Proof.
  intros H. apply Nat.odd_spec in H. destruct H as [m ->].
  induction m as [|m IH]; [reflexivity|].
  replace (2 * S m + 1)%nat with (S (S (2 * m + 1))) by lia.
  cbn [normal_moment]. rewrite IH. ring.
Qed.

Lemma gauss_odd c ks : Nat.odd (sum_list ks) = true -> gauss c ks = 0.
Proof.
  intros H. unfold gauss.
  replace (fold_right Z.mul 1%Z (map normal_moment ks)) with 0%Z; [ring|].
  symmetry. revert H. induction ks as [|k ks IH]; cbn [sum_list fold_right map]; [discriminate|].
  fold (sum_list ks). rewrite Nat.odd_add. intros H.
  destruct (Nat.odd k) eqn:Hk.
  - rewrite normal_moment_odd by assumption. ring.
  - rewrite IH; [ring|]. destruct (Nat.odd (sum_list ks)); auto.
Qed.

(* ------------------------------------------------------------------ *)
(** * Moments of the literal tables, by integer computation *)

(** all exponent vectors of length [D] with sum at most [n] *)
Fixpoint exps (D n : nat) : list (list nat) :=
  match D with
  | O => [[]]
  | S D' => flat_map (fun k => map (cons k) (exps D' (n - k))) (seq 0 (S n))
  end.

Lemma in_exps D : forall n ks, length ks = D -> (sum_list ks <= n)%nat -> In ks (exps D n).
Proof.
  induction D as [|D IH]; intros n ks HL Hs; destruct ks as [|k ks]; try discriminate.
  - left; reflexivity.
  - cbn [exps]. apply in_flat_map. cbn [sum_list fold_right] in Hs. fold (sum_list ks) in Hs.
    exists k. split; [apply in_seq; lia|]. apply in_map. apply IH; [cbn in HL; lia | lia].
Qed.

Definition toZ (P : positive) (q : Q) : Z := Qnum q.
Definition toZ_ok (P : positive) (q : Q) : bool := Pos.eqb (Qden q) P.

Lemma toZ_ok_sound P q : toZ_ok P q = true -> Q2R q = IZR (toZ P q) / IZR (Z.pos P).
Proof.
  unfold toZ_ok, toZ. intros H. apply Pos.eqb_eq in H. unfold Q2R. rewrite H. reflexivity.
Qed.

Fixpoint monoZ (r : list Z) (ks : list nat) : Z :=
  match ks, r with
  | k :: ks', x :: r' => (x ^ Z.of_nat k * monoZ r' ks')%Z
  | k :: ks', [] => (0 ^ Z.of_nat k * monoZ [] ks')%Z
  | [], _ => 1%Z
  end.

Definition momZ (rows : list (list Z)) (ws : list Z) (ks : list nat) : Z :=
  fold_right Z.add 0%Z (map (fun p => (snd p * monoZ (fst p) ks)%Z) (combine rows ws)).

Fixpoint Zpow_nat (z : Z) (n : nat) : Z := match n with O => 1%Z | S k => (z * Zpow_nat z k)%Z end.

(** [kd]: denominator of cs^2/c^2, where e = c * table. [tn/td]: tolerance. *)
Definition check_mom (D Q order : nat) (dir : list (list QArith_base.Q)) (wt : list QArith_base.Q)
   (P W kd : positive) (tn : Z) (td : positive) : bool :=
  let rows := map (map (toZ P)) dir in
  let ws := map (toZ W) wt in
  Nat.eqb (length dir) Q && Nat.eqb (length wt) Q &&
  forallb (fun r => Nat.eqb (length r) D && forallb (toZ_ok P) r) dir &&
  forallb (toZ_ok W) wt &&
  forallb (fun ks =>
    let n := sum_list ks in
    if Nat.odd n then true else
    let pn := (Zpow_nat (Z.pos P) n * Z.pos W)%Z in
    (Z.abs (momZ rows ws ks * Zpow_nat (Z.pos kd) (Nat.div2 n)
             - fold_right Z.mul 1 (map normal_moment ks) * pn) * Z.pos td <=? tn * pn)%Z)
   (exps D order).

Lemma IZR_Zpow_nat z n : IZR (Zpow_nat z n) = IZR z ^ n.
Proof. induction n as [|n IH]; cbn [Zpow_nat pow]; [reflexivity|]. rewrite mult_IZR, IH. reflexivity. Qed.

Lemma monoZ_sound P r : forall ks st i a c,
  (forall b, st_e st i (a + b) = c * Q2R (nth b r 0%Q)) ->
  forallb (toZ_ok P) r = true ->
  monomial st i a ks = (c / IZR (Z.pos P)) ^ (sum_list ks) * IZR (monoZ (map (toZ P) r) ks).
Proof.
  intros ks. revert r.
  assert (HP : IZR (Z.pos P) <> 0) by (apply not_0_IZR; discriminate).
  induction ks as [|k ks IH]; intros r st i a c He Hok;
    cbn [monomial sum_list fold_right].
  - destruct r; cbn; ring.
  - fold (sum_list ks). pose proof (He 0%nat) as H0. rewrite Nat.add_0_r in H0. rewrite H0.
    destruct r as [|x r].
    + rewrite (IH [] st i (S a) c); cbn [map monoZ].
      * rewrite mult_IZR, <- pow_IZR, pow_add. cbn [nth].
        replace (Q2R 0) with (IZR 0) by (unfold Q2R; cbn; lra).
        replace (c * IZR 0) with (c / IZR (Z.pos P) * IZR 0) by (cbn; lra).
        rewrite Rpow_mult_distr. ring.
      * intros b. replace (S a + b)%nat with (a + S b)%nat by lia. rewrite He.
        destruct b; reflexivity.
      * reflexivity.
    + cbn [forallb] in Hok. apply andb_true_iff in Hok. destruct Hok as [Hx Hr].
      rewrite (IH r st i (S a) c); cbn [map monoZ nth].
      * rewrite mult_IZR, <- pow_IZR, pow_add, (toZ_ok_sound P x Hx).
        replace (c * (IZR (toZ P x) / IZR (Z.pos P))) with (c / IZR (Z.pos P) * IZR (toZ P x))
          by (field; assumption).
        rewrite Rpow_mult_distr. ring.
      * intros b. replace (S a + b)%nat with (a + S b)%nat by lia. rewrite He. reflexivity.
      * exact Hr.
Qed.

Lemma sumf_momZ (dir : list (list Q)) : forall (wt : list Q) (g : nat -> R) (C : R) P W ks,
  length dir = length wt ->
  (forall i, (i < length wt)%nat ->
     g i = C * (IZR (toZ W (nth i wt 0%Q)) * IZR (monoZ (map (toZ P) (nth i dir [])) ks))) ->
  sumf (length wt) g = C * IZR (momZ (map (map (toZ P)) dir) (map (toZ W) wt) ks).
Proof.
  induction dir as [|r dir IH]; intros wt g C P W ks HL Hg;
    destruct wt as [|x wt]; try discriminate; [cbn; ring|].
  cbn [length]. rewrite sumf_S_first.
  rewrite (IH wt (fun i => g (S i)) C P W ks).
  - rewrite (Hg 0%nat) by (cbn; lia). unfold momZ. cbn [map combine fold_right nth fst snd].
    rewrite plus_IZR, mult_IZR. ring.
  - cbn in HL; lia.
  - intros i Hi. rewrite (Hg (S i)) by (cbn; lia). reflexivity.
Qed.

Lemma check_mom_sound D Q order dir wt P W kd tn td st c :
  check_mom D Q order dir wt P W kd tn td = true ->
  st_D st = D -> st_Q st = Q ->
  (forall i a, (i < Q)%nat -> st_e st i a = c * tbl dir i a) ->
  (forall i, st_w st i = wtbl wt i) ->
  st_cs2 st = c * c / IZR (Z.pos kd) ->
  forall ks, length ks = D -> (sum_list ks <= order)%nat -> Nat.odd (sum_list ks) = false ->
  Rabs (mom st ks - gauss (st_cs2 st) ks)
    <= IZR tn / IZR (Z.pos td) * (st_cs2 st) ^ (Nat.div2 (sum_list ks)).
Proof.
  unfold check_mom. rewrite !andb_true_iff. intros [[[[HLd HLw] Hdir] Hwt] Hm] HD HQ He Hw Hcs ks HL Hs Hev.
  apply Nat.eqb_eq in HLd. apply Nat.eqb_eq in HLw.
  rewrite forallb_forall in Hdir. rewrite forallb_forall in Hwt. rewrite forallb_forall in Hm.
  specialize (Hm ks (in_exps _ _ _ HL Hs)). cbv zeta in Hm. rewrite Hev in Hm.
  apply Z.leb_le in Hm.
  assert (HP : 0 < IZR (Z.pos P)) by (apply IZR_lt; reflexivity).
  assert (HW : 0 < IZR (Z.pos W)) by (apply IZR_lt; reflexivity).
  assert (Hk : 0 < IZR (Z.pos kd)) by (apply IZR_lt; reflexivity).
  assert (Htd : 0 < IZR (Z.pos td)) by (apply IZR_lt; reflexivity).
  set (n := sum_list ks) in *.
  set (h := Nat.div2 n) in *.
  assert (Hn : n = (2 * h)%nat).
  { unfold h. assert (Heven : Nat.even n = true) by (rewrite <- Nat.negb_odd, Hev; reflexivity).
    apply Nat.even_spec in Heven. destruct Heven as [q ->]. rewrite Nat.div2_double. lia. }
  assert (Hmom : mom st ks = (c / IZR (Z.pos P)) ^ n / IZR (Z.pos W)
             * IZR (momZ (map (map (toZ P)) dir) (map (toZ W) wt) ks)).
  { unfold mom. rewrite HQ, <- HLw. apply sumf_momZ; [congruence|].
    intros i Hi.
    assert (Hrow : In (nth i dir []) dir) by (apply nth_In; lia).
    specialize (Hdir _ Hrow). apply andb_true_iff in Hdir. destruct Hdir as [_ Hrok].
    rewrite (monoZ_sound P (nth i dir []) ks st i 0 c).
    - rewrite Hw. unfold wtbl.
      rewrite (toZ_ok_sound W (nth i wt 0%Q)) by (apply Hwt; apply nth_In; lia).
      fold n. field; lra.
    - intros b. cbn [Nat.add]. rewrite He by lia. reflexivity.
    - exact Hrok. }
  rewrite Hmom. unfold gauss. fold n. fold h.
  set (M := momZ (map (map (toZ P)) dir) (map (toZ W) wt) ks) in *.
  set (G := fold_right Z.mul 1%Z (map normal_moment ks)) in *.
  apply IZR_le in Hm. rewrite !mult_IZR, abs_IZR, minus_IZR, !mult_IZR, !IZR_Zpow_nat in Hm.
  rewrite Hcs.
  assert (Hcc : 0 <= c * c) by nra.
  set (u := (c * c / IZR (Z.pos kd)) ^ h).
  assert (Hu : 0 <= u).
  { apply pow_le. apply Rmult_le_pos; [lra|]. left. apply Rinv_0_lt_compat. lra. }
  assert (Hpk : 0 < IZR (Z.pos kd) ^ h) by (apply pow_lt; lra).
  assert (Hpp : 0 < IZR (Z.pos P) ^ n) by (apply pow_lt; lra).
  assert (Hcu : (c / IZR (Z.pos P)) ^ n = u * IZR (Z.pos kd) ^ h / IZR (Z.pos P) ^ n).
  { unfold u, Rdiv. rewrite Hn at 1. rewrite !Rpow_mult_distr, !pow_inv, pow_mult.
    replace (c ^ 2) with (c * c) by (cbn; ring).
    rewrite Rpow_mult_distr, pow_mult. rewrite Hn. rewrite !pow_mult. field.
    split; [rewrite <- pow_mult, <- Hn; lra | lra]. }
  rewrite Hcu.
  set (A := IZR M * IZR (Z.pos kd) ^ h - IZR G * (IZR (Z.pos P) ^ n * IZR (Z.pos W))) in *.
  replace (u * IZR (Z.pos kd) ^ h / IZR (Z.pos P) ^ n / IZR (Z.pos W) * IZR M - IZR G * u)
    with (u * (A / (IZR (Z.pos P) ^ n * IZR (Z.pos W)))).
  2:{ unfold A. field. split; lra. }
  rewrite Rabs_mult, (Rabs_pos_eq u Hu), Rmult_comm.
  apply Rmult_le_compat_r; [exact Hu|].
  assert (HPW : 0 < IZR (Z.pos P) ^ n * IZR (Z.pos W)) by (apply Rmult_lt_0_compat; lra).
  unfold Rdiv at 1. rewrite Rabs_mult, (Rabs_pos_eq (/ _)) by (left; apply Rinv_0_lt_compat; exact HPW).
  apply (Rmult_le_reg_r (IZR (Z.pos P) ^ n * IZR (Z.pos W))); [exact HPW|].
  rewrite Rmult_assoc, Rinv_l, Rmult_1_r by lra.
  apply (Rmult_le_reg_r (IZR (Z.pos td))); [exact Htd|].
  eapply Rle_trans; [exact Hm|]. right. field. lra.
Qed.
