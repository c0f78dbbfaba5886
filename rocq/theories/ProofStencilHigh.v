(** Moments of the stencils for compressible flow, up to order seven or nine. *)
From Coq Require Import QArith Qreals.
From Verif Require Import Prelude StencilData ModelStencils SpecStencils BigSum ProofStencils ProofStencilMoments.
Local Open Scope R_scope.

(** ** A faster version of [check_mom]: all monomials of a row share their factors *)
(** [pows w x n r k]: for j = 0..k, f (w x^j) (n - j), concatenated; [m] counts down from n. *)
Fixpoint row_moms (r : list Z) (w : Z) (n : nat) : list Z :=
  match r with
  | [] => [w]
  | x :: r' => (fix go (w : Z) (m : nat) : list Z :=
                  row_moms r' w m ++ match m with O => [] | S m' => go (x * w)%Z m' end) w n
  end.
Fixpoint add_lists (l m : list Z) : list Z :=
  match l, m with x :: l', y :: m' => (x + y)%Z :: add_lists l' m' | _, _ => [] end.
Fixpoint all_moms (D n : nat) (rows : list (list Z)) (ws : list Z) : list Z :=
  match rows, ws with
  | r :: rows', w :: ws' => add_lists (row_moms r w n) (all_moms D n rows' ws')
  | _, _ => map (fun _ => 0%Z) (exps D n)
  end.

Fixpoint go_exps (D : nat) (j m : nat) : list (list nat) :=
  map (cons j) (exps D m) ++ match m with O => [] | S m' => go_exps D (S j) m' end.
Lemma go_exps_ok D : forall m j, go_exps D j m = flat_map (fun k => map (cons k) (exps D (j + m - k))) (List.seq j (S m)).
Proof.
  induction m as [|m IH]; intros j; cbn [go_exps List.seq flat_map].
  - now replace (j + 0 - j)%nat with 0%nat by lia.
  - replace (j + S m - j)%nat with (S m) by lia. f_equal. rewrite IH. cbn [List.seq flat_map].
    replace (S j + m)%nat with (j + S m)%nat by lia. reflexivity.
Qed.
Lemma exps_go D n : exps (S D) n = go_exps D 0 n.
Proof. cbn [exps]. rewrite go_exps_ok. reflexivity. Qed.

Lemma row_moms_ok : forall r w n, row_moms r w n = map (fun ks => (w * monoZ r ks)%Z) (exps (length r) n).
Proof.
  induction r as [|x r IH]; intros w n.
  - cbn. f_equal. lia.
  - cbn [length]. rewrite exps_go. cbn [row_moms].
    assert (G : forall m j w0, w0 = (w * x ^ Z.of_nat j)%Z ->
      (fix go (w : Z) (m : nat) : list Z := row_moms r w m ++ match m with O => [] | S m' => go (x * w)%Z m' end) w0 m
      = map (fun ks => (w * monoZ (x :: r) ks)%Z) (go_exps (length r) j m)).
    { induction m as [|m IHm]; intros j w0 E.
      - cbn [go_exps]. rewrite !app_nil_r, IH, map_map. apply map_ext. intros ks. cbn [monoZ]. rewrite E. ring.
      - cbn [go_exps]. rewrite map_app. f_equal.
        + rewrite IH, map_map. apply map_ext. intros ks. cbn [monoZ]. rewrite E. ring.
        + apply IHm. rewrite E, Nat2Z.inj_succ, Z.pow_succ_r by lia. ring. }
    apply (G n 0%nat w). cbn. ring.
Qed.
Lemma add_lists_map {A} (f g : A -> Z) : forall l, add_lists (map f l) (map g l) = map (fun a => (f a + g a)%Z) l.
Proof. induction l as [|a l IH]; [reflexivity|]. cbn [map add_lists]. now rewrite IH. Qed.
Lemma all_moms_ok D n : forall rows ws, Forall (fun r => length r = D) rows ->
  all_moms D n rows ws = map (momZ rows ws) (exps D n).
Proof.
  induction rows as [|r rows IH]; intros ws H; [reflexivity|]. destruct ws as [|w ws]; [reflexivity|].
  inversion H as [|? ? E H']; subst. cbn [all_moms]. rewrite row_moms_ok, IH, add_lists_map by assumption.
  apply map_ext. intros ks. reflexivity.
Qed.

Fixpoint forallb2 {A B} (f : A -> B -> bool) (l : list A) (m : list B) : bool :=
  match l, m with a :: l', b :: m' => f a b && forallb2 f l' m' | _, _ => true end.
Lemma forallb2_map {A B} (f : A -> B -> bool) (g : A -> B) : forall l, forallb2 f l (map g l) = forallb (fun a => f a (g a)) l.
Proof. induction l as [|a l IH]; [reflexivity|]. cbn [map forallb2 forallb]. now rewrite IH. Qed.

Definition check_fast (D Q order : nat) (dir : list (list QArith_base.Q)) (wt : list QArith_base.Q)
   (P W kd : positive) (tn : Z) (td : positive) : bool :=
  let rows := map (map (toZ P)) dir in
  let ws := map (toZ W) wt in
  Nat.eqb (length dir) Q && Nat.eqb (length wt) Q &&
  forallb (fun r => Nat.eqb (length r) D && forallb (toZ_ok P) r) dir &&
  forallb (toZ_ok W) wt &&
  forallb2 (fun ks m =>
    let n := sum_list ks in
    if Nat.odd n then true else
    let pn := (Zpow_nat (Z.pos P) n * Z.pos W)%Z in
    (Z.abs (m * Zpow_nat (Z.pos kd) (Nat.div2 n)
             - fold_right Z.mul 1 (map normal_moment ks) * pn) * Z.pos td <=? tn * pn)%Z)
   (exps D order) (all_moms D order rows ws).
Lemma check_fast_ok D Q order dir wt P W kd tn td :
  check_fast D Q order dir wt P W kd tn td = true -> check_mom D Q order dir wt P W kd tn td = true.
Proof.
  unfold check_fast, check_mom. cbv zeta. rewrite !andb_true_iff. intros [[[[A B] C] E] F]. repeat split; try assumption.
  rewrite all_moms_ok in F.
  - rewrite forallb2_map in F. exact F.
  - rewrite Forall_forall. intros r Hr. apply in_map_iff in Hr. destruct Hr as (r0 & <- & Hr).
    rewrite forallb_forall in C. specialize (C r0 Hr). apply andb_true_iff in C. destruct C as [C _].
    apply Nat.eqb_eq in C. now rewrite map_length.
Qed.

Ltac mofast D Q o dir wt P W kd tn td c :=
  eapply mom_ok_tol;
  [ apply (mom_ok_table D Q o dir wt P W kd tn td _ c);
    [ apply check_fast_ok; vm_compute; reflexivity
    | | reflexivity | reflexivity | lia
    | try reflexivity
    | reflexivity
    | cbn [st_cs2 D2Q9 D3Q15 D3Q19 D3Q27 RD3Q27 D3V27 D2Q19V D2Q19H D3Q45 D3Q77 D2Q777]
    | cbn [st_cs2 st_cs D2Q9 D3Q15 D3Q19 D3Q27 RD3Q27 D3V27 D2Q19V D2Q19H D3Q45 D3Q77 D2Q777];
      apply cs2_sqrt; lra ]
  | ].

Lemma high_D3V27 s : mom_ok (D3V27 s) 7 (1 / 10^14).
Proof. mofast 3%nat 27%nat 7%nat D3V27_dir D3V27_wt (2*10^15)%positive (10^19)%positive 1%positive 1%Z 100000000000000%positive (s/sqrt 3);
  [apply opp_ok_D3V27 | intros; apply e_lit | apply cs2_div1 | lra]. Qed.
Lemma high_D2Q19V s : mom_ok (D2Q19V s) 9 (1 / 10^13).
Proof. mofast 2%nat 19%nat 9%nat D2Q19V_dir D2Q19V_wt (10^16)%positive (10^19)%positive 1%positive 1%Z 10000000000000%positive (s/sqrt 3);
  [apply opp_ok_D2Q19V | intros; apply e_lit | apply cs2_div1 | lra]. Qed.
Lemma high_D3Q45 s : mom_ok (D3Q45 s) 7 (3 / 10^14).
Proof. mofast 3%nat 45%nat 7%nat D3Q45_dir D3Q45_wt (10^17)%positive (10^19)%positive 1%positive 3%Z 100000000000000%positive (s/sqrt 3);
  [apply opp_ok_D3Q45 | intros; apply e_lit | apply cs2_div1 | lra]. Qed.
Lemma high_D3Q77 s : mom_ok (D3Q77 s) 7 (2 / 10^13).
Proof. mofast 3%nat 77%nat 7%nat D3Q77_dir D3Q77_wt 1250000000000000%positive (10^20)%positive 1%positive 2%Z 10000000000000%positive (s/sqrt 3);
  [apply opp_ok_D3Q77 | intros; apply e_lit | apply cs2_div1 | lra]. Qed.
Lemma high_D2Q19H s : mom_ok (D2Q19H s) 9 (1 / 10^13).
Proof.
  set (st' := mkStencil 2 19 (fun i a => s / sqrt 3 * tbl (swap2 D2Q19H_dir) i a) (wtbl D2Q19H_wt)
        (opp_default0 D2Q19H_opp) (s / sqrt 3) (s * s / 3) (sqrt 2 * s)).
  assert (He : forall i a, (i < 19)%nat -> (a < 2)%nat -> st_e (D2Q19H s) i a = st_e st' i a).
  { intros i a Hi Ha. cbn [st_e D2Q19H st']. rewrite tbl_swap2_D2Q19H by assumption. apply e_lit. }
  assert (H : mom_ok st' 9 (1 / 10 ^ 13)).
  { mofast 2%nat 19%nat 9%nat (swap2 D2Q19H_dir) D2Q19H_wt (10^16)%positive (10^19)%positive 1%positive 1%Z 10000000000000%positive (s/sqrt 3);
    [ | apply cs2_div1 | lra].
    apply opp_ok_ext with (e' := st_e (D2Q19H s)).
    - intros. symmetry. apply He; assumption.
    - apply (opp_ok_D2Q19H s). }
  intros ks HL Hs. specialize (H ks HL Hs).
  replace (mom (D2Q19H s) ks) with (mom st' ks); [exact H|].
  apply sumf_ext. intros i Hi. cbn [st_w D2Q19H st']. f_equal.
  apply monomial_ext. intros b Hb. symmetry. apply He; [exact Hi|]. cbn in HL. lia.
Qed.
